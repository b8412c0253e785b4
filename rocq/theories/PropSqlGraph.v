(** Theorems about graphs whose fields and links are served by SQL loaders (C64). *)
From Verif Require Import Base Val Types Query Graph Validate ValidateSpec PropValidate Engine EngineSpec Sql SqlSpec PropSql Transform PropTransform SqlGraph SqlGraphSpec Introspect.

Lemma mapR_err {A B} (f : A -> res B) l e : mapR f l = Err e -> exists x, x ∈ l /\ f x = Err e.
Proof.
  induction l as [|x l IH]; [done|]. cbn [mapR]. destruct (f x) as [y|e'] eqn:Ex.
  - destruct (mapR f l) as [ys|]; [done|]. intros [= ->]. destruct (IH eq_refl) as (z & ? & ?). exists z. split; [by right|done].
  - intros [= ->]. exists x. split; [left|done].
Qed.
Lemma translate_spec c : type_of_column c (translate_type c).
Proof. by destruct c. Qed.

Section made.
  Context (kinds : N -> sql_kind) (mapped : N -> tenum -> N).
  Lemma served_fields f t : served_by kinds f (KFields t) <-> exists n, gf_func f = FPlain n /\ kinds n = KFields t.
  Proof. done. Qed.
  Lemma post_field_ok f f' : post_field kinds f = Ok f' -> field_made kinds f f'.
  Proof.
    unfold post_field, field_made. destruct (gf_func f) as [n|sg rq pr] eqn:Ef.
    - destruct (kinds n) as [t| |] eqn:Ek; [|done|].
      + assert (~ served_by kinds f KLinks) as Hnl by (intros (n' & Hn & Hk); congruence).
        destruct (gf_type f) as [u|] eqn:Et.
        * intros [= <-]. rewrite Ef, Et. split_and!; [done..|]. left. split; [done|]. done.
        * destruct (dget (gf_name f) (tb_cols t)) as [c|] eqn:Ec; [|done]. intros [= <-]. cbn.
          split_and!; [done..|]. right. split; [done|]. exists t, c. split_and!; [by exists n|done|apply translate_spec].
      + intros [= <-]. split_and!; [done|done|done|intros (n' & Hn & Hk); congruence|]. left. split; [done|]. intros _ t (n' & Hn & Hk). congruence.
    - intros [= <-]. split_and!; [done|done|done|intros (n' & Hn & Hk); congruence|]. left. split; [done|]. intros _ t (n' & Hn & Hk). congruence.
  Qed.
  Lemma post_field_err f e : post_field kinds f = Err e <-> bad_field kinds f e.
  Proof.
    unfold post_field, bad_field, served_by. split.
    - destruct (gf_func f) as [n|sg rq pr] eqn:Ef; [|done]. destruct (kinds n) as [t| |] eqn:Ek; [| |done].
      + destruct (gf_type f); [done|]. destruct (dget (gf_name f) (tb_cols t)) eqn:Ec; [done|]. intros [= <-].
        left. split; [done|]. exists t. split_and!; [by exists n| |done]. by apply dget_None in Ec.
      + intros [= <-]. right. split; [by exists n|done].
    - intros [(Ht & t & (n & Hf & Hk) & Hn & ->)|((n & Hf & Hk) & ->)]; rewrite Hf, Hk; [|done].
      rewrite Ht. apply dget_None in Hn. by rewrite Hn.
  Qed.
  Lemma post_link_made l : link_made kinds mapped l (post_link kinds mapped l).
  Proof.
    unfold post_link, link_made. destruct (kinds (gl_func l)) as [t| |] eqn:Ek; cbn.
    - split_and!; [done..|]. right. by split.
    - split_and!; [done..|]. left. split; [done|]. exists (gl_enum l). split; [done|]. unfold gl_type. by destruct (gl_enum l).
    - split_and!; [done..|]. right. by split.
  Qed.
  Lemma post_item_ok x x' : post_item kinds mapped x = Ok x' -> item_made kinds mapped x x'.
  Proof.
    destruct x as [f|l]; cbn [post_item].
    - rewrite visit_field_id. destruct (post_field kinds f) as [f'|] eqn:Ef; [|done]. intros [= <-]. by apply post_field_ok.
    - rewrite visit_link_id. intros [= <-]. apply post_link_made.
  Qed.
  Lemma post_node_ok n n' : post_node kinds mapped n = Ok n' -> node_made kinds mapped n n'.
  Proof.
    unfold post_node. destruct (mapR _ (gn_fields n)) as [fs|] eqn:Ef; [|done]. intros [= <-]. split; [done|]. cbn.
    apply mapR_ok in Ef. eapply Forall2_impl; [exact Ef|]. intros x y. apply post_item_ok.
  Qed.
  (** C64: a graph made of valid definitions has the same nodes, fields and links; fields without a
      type get that of their columns; links map rows according to their types. *)
  Theorem C64_made items dt g : make_sql_graph kinds mapped items dt = Ok g ->
    well_formed items /\ g_dtypes g = dt /\ Forall2 (node_made kinds mapped) items (g_items g).
  Proof.
    unfold make_sql_graph. destruct (gvalidate items) eqn:Ev; [|done]. destruct (mapR _ items) as [is_|] eqn:Ei; [|done].
    intros [= <-]. split; [by apply gvalidate_wf|]. split; [done|]. cbn. apply mapR_ok in Ei.
    eapply Forall2_impl; [exact Ei|]. intros x y. apply post_node_ok.
  Qed.
  Lemma post_item_err x e : post_item kinds mapped x = Err e <-> exists f, x = GF f /\ bad_field kinds f e.
  Proof.
    destruct x as [f|l]; cbn [post_item].
    - rewrite visit_field_id. split.
      + destruct (post_field kinds f) as [f'|] eqn:Ef; [done|]. intros [= ->]. exists f. split; [done|]. by apply post_field_err.
      + intros (f' & [= <-] & Hb). apply post_field_err in Hb. by rewrite Hb.
    - rewrite visit_link_id. split; [done|]. by intros (f & ? & _).
  Qed.
  Definition all_fields (items : list gnode) (f : gfield) : Prop := exists n, n ∈ items /\ GF f ∈ gn_fields n.
  (** C64: valid definitions make a graph unless a field is to have the type of a column which is not
      in its table (KeyError), or has the loader of a link (AttributeError). *)
  Theorem C64_fails items dt : well_formed items ->
    ((exists e, make_sql_graph kinds mapped items dt = Err e) <-> exists f e, all_fields items f /\ bad_field kinds f e) /\
    (forall e, make_sql_graph kinds mapped items dt = Err e -> exists f, all_fields items f /\ bad_field kinds f e).
  Proof.
    intros Hw. assert (gvalidate items = []) as Ev by by apply gvalidate_wf.
    assert (forall e, make_sql_graph kinds mapped items dt = Err e -> exists f, all_fields items f /\ bad_field kinds f e) as H2.
    { intros e. unfold make_sql_graph. rewrite Ev. destruct (mapR _ items) as [|e'] eqn:Ei; [done|]. intros [= ->].
      apply mapR_err in Ei as (n & Hn & He). unfold post_node in He.
      destruct (mapR _ (gn_fields n)) as [|e'] eqn:Ef; [done|]. injection He as ->.
      apply mapR_err in Ef as (x & Hx & He). apply post_item_err in He as (f & -> & Hb). exists f. split; [by exists n|done]. }
    split; [|exact H2]. split.
    - intros [e He]. destruct (H2 e He) as (f & ? & ?). eauto.
    - intros (f & e & (n & Hn & Hf) & Hb). destruct (make_sql_graph kinds mapped items dt) as [g|e'] eqn:Eg; [|by exists e'].
      exfalso. unfold make_sql_graph in Eg. rewrite Ev in Eg. destruct (mapR _ items) as [is_|] eqn:Ei; [|done].
      apply mapR_ok in Ei. destruct (F2_elem_l _ _ _ _ Ei Hn) as (n' & _ & He). unfold post_node in He.
      destruct (mapR _ (gn_fields n)) as [fs|] eqn:Ef; [|done]. apply mapR_ok in Ef.
      destruct (F2_elem_l _ _ _ _ Ef Hf) as (x & _ & Hx). assert (post_item kinds mapped (GF f) = Err e) as Hy by (apply post_item_err; eauto).
      by rewrite Hx in Hy.
  Qed.
End made.


Section again.
  Context (kinds : N -> sql_kind) (mapped : N -> tenum -> N).
  Lemma item_made_name x x' : item_made kinds mapped x x' -> gi_name x' = gi_name x.
  Proof. destruct x, x'; try done; intros (? & _); done. Qed.
  Lemma items_made_names fs fs' : Forall2 (item_made kinds mapped) fs fs' -> map gi_name fs' = map gi_name fs.
  Proof. induction 1 as [|x x' l l' Hx _ IH]; [done|]. cbn. by rewrite IH, (item_made_name _ _ Hx). Qed.
  Lemma wf_node_made ns fs fs' : Forall2 (item_made kinds mapped) fs fs' -> well_formed_node ns fs -> well_formed_node ns fs'.
  Proof.
    intros Hf [Hd Hl]. unfold well_formed_node. rewrite (items_made_names _ _ Hf). split; [done|]. intros l' Hin.
    destruct (F2_elem_r _ _ _ _ Hf Hin) as ([f|l] & Hx & Hm); [done|]. destruct Hm as (_ & Hn & _ & Hr & _). rewrite Hn, Hr. by apply Hl.
  Qed.
  Lemma wf_made items items' : Forall2 (node_made kinds mapped) items items' -> well_formed items -> well_formed items'.
  Proof.
    intros Hf (Hd & Hr & Hn).
    assert (names_of_nodes items' = names_of_nodes items) as Hnames.
    { clear Hd Hr Hn. unfold names_of_nodes. induction Hf as [|n n' l l' [Hnm _] _ IH]; [done|]. cbn [flat_map]. by rewrite IH, Hnm. }
    assert (Forall2 (item_made kinds mapped) (root_fields items) (root_fields items')) as Hroot.
    { clear Hd Hr Hn Hnames. unfold root_fields. induction Hf as [|n n' l l' [Hnm Hfs] _ IH]; [constructor|]. cbn [flat_map]. rewrite Hnm.
      destruct (gn_name n); [done|]. by apply Forall2_app. }
    unfold well_formed. rewrite Hnames. split; [done|]. split; [by eapply wf_node_made|].
    intros n' x Hin Hx. destruct (F2_elem_r _ _ _ _ Hf Hin) as (n & Hin0 & Hnm & Hfs). eapply wf_node_made; [exact Hfs|].
    apply (Hn n x); [done|]. by rewrite <-Hnm.
  Qed.
  (** C64: making a graph again - transformers do that - changes nothing more, as the functions which
      map rows are no objects of the loader classes any more (functools.partial is none). *)
  Theorem C64_made_again items dt g : (forall n t, kinds (mapped n t) = KOther) ->
    make_sql_graph kinds mapped items dt = Ok g -> make_sql_graph kinds mapped (g_items g) (g_dtypes g) = Ok g.
  Proof.
    intros Hm Hg. destruct (C64_made _ _ _ _ _ Hg) as (Hw & _ & Hf).
    assert (forall n, n ∈ g_items g -> post_node kinds mapped n = Ok n) as Hfix.
    { intros n' Hin. destruct (F2_elem_r _ _ _ _ Hf Hin) as (n & _ & _ & Hn). destruct n' as [nm fs]. cbn in Hn. unfold post_node. cbn.
      rewrite (mapR_id _ fs); [done|]. intros x' Hx. destruct (F2_elem_r _ _ _ _ Hn Hx) as (x & _ & Hi).
      destruct x as [f|k], x' as [f'|k']; try done; cbn [post_item item_made] in *.
      - rewrite visit_field_id. assert (post_field kinds f' = Ok f') as ->; [|done]. destruct Hi as (Hnm & Hfn & Hop & Hnl & Ht).
        unfold post_field. destruct (gf_func f') as [n0|] eqn:En; [|done].
        destruct (kinds n0) as [t| |] eqn:Ek; [| |done].
        + destruct (gf_type f') as [u|] eqn:Et; [done|]. destruct Ht as [[Hd Hno]|(Hd & t' & c & (n1 & Hn1 & Hk1) & Hc & Hty)].
          * exfalso. apply (Hno (eq_sym Hd) t). exists n0. by rewrite <-Hfn.
          * rewrite Hn1 in Hfn. injection Hfn as ->. rewrite Hk1 in Ek. injection Ek as ->. rewrite Hnm, Hc.
            destruct c; [done|done|]. cbn. destruct f' as [a b c d]. cbn in *. by subst.
        + exfalso. apply Hnl. exists n0. by rewrite <-Hfn.
      - rewrite visit_link_id. f_equal. f_equal. destruct Hi as (? & ? & ? & ? & ? & Hk). unfold post_link.
        destruct Hk as [(_ & t & -> & _)|[Hk ->]]; [by rewrite Hm|]. by destruct (kinds (gl_func k)). }
    unfold make_sql_graph. rewrite (proj2 (gvalidate_wf _)) by by eapply wf_made. rewrite (mapR_id _ _ Hfix). by destruct g.
  Qed.
End again.

(** ** What is served *)
(** C64: the loader of fields can be made if the primary key is given, or is one column; the one of
    links if both columns are of one table. *)
Theorem C64_loaders_made : 
  (forall t k, make_fields_query t (Some k) = Ok (FieldsQuery (map fst (tb_cols t)) k)) /\
  (forall t fq, make_fields_query t None = Ok fq <-> exists k, tb_pk t = [k] /\ fq_pk fq = k /\ fq_cols fq = map fst (tb_cols t)) /\
  (forall t e, make_fields_query t None = Err e <-> length (tb_pk t) <> 1%nat /\ e = ValueError) /\
  (forall a b lq, make_link_query a b = Ok lq <-> c_table a = c_table b /\ lq_from lq = c_name a /\ lq_to lq = c_name b) /\
  (forall a b e, make_link_query a b = Err e <-> c_table a <> c_table b /\ e = ValueError).
Proof.
  split_and!.
  - done.
  - intros t [cs k']. unfold make_fields_query. destruct (tb_pk t) as [|k [|k2 l]]; cbn.
    + split; [done|]. by intros (k & ? & _).
    + split; [intros [= <- <-]; eauto|]. by intros (? & [= <-] & <- & ->).
    + split; [done|]. by intros (? & ? & _).
  - intros t e. unfold make_fields_query. destruct (tb_pk t) as [|k [|k2 l]]; cbn.
    + split; [by intros [= <-]|by intros [_ ->]].
    + split; [done|]. by intros [? _].
    + split; [by intros [= <-]|by intros [_ ->]].
  - intros a b [x y]. unfold make_link_query. destruct (Nat.eqb_spec (c_table a) (c_table b)) as [->|]; cbn.
    + split; [by intros [= <- <-]|]. by intros (_ & -> & ->).
    + split; [done|]. by intros [? _].
  - intros a b e. unfold make_link_query. destruct (Nat.eqb_spec (c_table a) (c_table b)) as [->|]; cbn.
    + split; [done|]. by intros [? _].
    + split; [by intros [= <-]|by intros [_ ->]].
Qed.
(** C64: the values of a column are of its type, or None. *)
Theorem C64_values t pk fq tbl db dr qfs ids :
  make_fields_query t pk = Ok fq -> answers tbl db -> sane dr -> typed_rows t tbl ->
  (forall q, q ∈ qfs -> q_name q ∈ map fst (tb_cols t)) ->
  exists rows, fields_call db dr fq qfs ids = Ret (VList (map VList rows)) /\
    Forall2 (fun _ vs => Forall2 (fun q v => v = VNone \/ exists c, dget (q_name q) (tb_cols t) = Some c /\ fits_column c v) qfs vs) ids rows.
Proof.
  intros Hfq Hdb Hs Ht Hq.
  assert (fq_cols fq = map fst (tb_cols t)) as Hcols.
  { unfold make_fields_query in Hfq. destruct pk; [by injection Hfq as <-|]. destruct (tb_pk t) as [|? [|? ?]]; try done. by injection Hfq as <-. }
  destruct (C41_one_row_per_id tbl db dr fq qfs ids Hdb Hs) as (rows & Hr & Hf); [by rewrite Hcols|].
  exists rows. split; [done|]. eapply Forall2_impl; [exact Hf|]. intros i vs Hrow.
  destruct Hrow as [(r & Hin & _ & ->)|[_ ->]].
  - rewrite map_map. clear Hf Hr. induction qfs as [|q qfs IH]; constructor.
    + unfold cell. destruct (dget (q_name q) r) as [v|] eqn:Ev; [|by left].
      destruct (dget (q_name q) (tb_cols t)) as [c|] eqn:Ec.
      * destruct (Ht r _ c v Hin Ec Ev); [by left|]. right. eauto.
      * exfalso. apply dget_None in Ec. apply Ec, Hq. left.
    + apply IH. intros q' Hq'. apply Hq. by right.
  - rewrite map_map. clear. induction qfs; constructor; [by left|done].
Qed.
(** C64: so what clients are told is true where the table has a row for every identifier, without NULL. *)
Theorem C64_not_null t pk fq tbl db dr qfs ids :
  make_fields_query t pk = Ok fq -> answers tbl db -> sane dr -> typed_rows t tbl ->
  (forall q, q ∈ qfs -> q_name q ∈ map fst (tb_cols t)) ->
  (forall i, i ∈ ids -> exists r, r ∈ tbl /\ has_val r (fq_pk fq) i) ->
  (forall r q, r ∈ tbl -> q ∈ qfs -> exists v, has_val r (q_name q) v) ->
  exists rows, fields_call db dr fq qfs ids = Ret (VList (map VList rows)) /\
    Forall2 (fun _ vs => Forall2 (fun q v => v <> VNone /\ exists c, dget (q_name q) (tb_cols t) = Some c /\ fits_column c v) qfs vs) ids rows.
Proof.
  intros Hfq Hdb Hs Ht Hq Hids Hnn.
  destruct (C64_values t pk fq tbl db dr qfs ids Hfq Hdb Hs Ht Hq) as (rows & Hr & Hf). exists rows. split; [done|].
  assert (fq_cols fq = map fst (tb_cols t)) as Hcols.
  { unfold make_fields_query in Hfq. destruct pk; [by injection Hfq as <-|]. destruct (tb_pk t) as [|? [|? ?]]; try done. by injection Hfq as <-. }
  destruct (C41_one_row_per_id tbl db dr fq qfs ids Hdb Hs) as (rows' & Hr' & Hf'); [by rewrite Hcols|].
  assert (rows' = rows) as ->.
  { rewrite Hr in Hr'. injection Hr' as Hr'. clear -Hr'. revert rows' Hr'. induction rows as [|x l IH]; intros [|y l'] [=]; [done|]. subst. by rewrite (IH l'). }
  apply Forall2_same_length_lookup. split; [by eapply Forall2_length|]. intros k i vs Hi Hvs.
  pose proof (Forall2_lookup_lr _ _ _ _ _ _ Hf Hi Hvs) as H1. pose proof (Forall2_lookup_lr _ _ _ _ _ _ Hf' Hi Hvs) as H2.
  apply elem_of_list_lookup_2 in Hi. destruct (Hids i Hi) as (r0 & Hr0 & Hv0).
  destruct H2 as [(r & Hin & _ & ->)|[Hno _]]; [|by exfalso; eapply Hno].
  clear -H1 Hnn Hin. apply Forall2_same_length_lookup. split; [by eapply Forall2_length|]. intros j q v Hqj Hvj.
  pose proof (Forall2_lookup_lr _ _ _ _ _ _ H1 Hqj Hvj) as Hv. cbn in Hv.
  assert (v <> VNone) as Hne.
  { rewrite map_map in Hvj. rewrite list_lookup_fmap, Hqj in Hvj. injection Hvj as <-. apply elem_of_list_lookup_2 in Hqj.
    destruct (Hnn r q Hin Hqj) as (w & Hw & Hwn). unfold cell. by rewrite Hw. }
  split; [done|]. destruct Hv as [?|Hv]; [done|exact Hv].
Qed.
(** C64: a link of a made graph gives every identifier what the table pairs with it, according to
    the type of the link. *)
Theorem C64_link_values kinds mapped l l' tbl db dr order lq (E : N -> reqs -> outcome) ids xs :
  link_made kinds mapped l l' -> kinds (gl_func l) = KLinks ->
  (forall t a, E (mapped (gl_func l) t) a = link_loader order db dr lq t a) ->
  answers tbl db -> sane dr -> (forall l, Permutation (order l) l) ->
  E (gl_func l') (RList (map IVal ids)) = Ret (VList xs) ->
  Forall2 (target_for tbl lq (gl_enum l)) ids xs.
Proof.
  intros (_ & _ & _ & _ & _ & [(_ & t & Hf & Ht)|[Hk _]]) Hk' HE Hdb Hs Ho Hr; [|done].
  rewrite Hf, HE in Hr. cbn [link_loader] in Hr.
  assert (mapM (fun v : ival => match v with IVal x => Some x | _ => None end) (map IVal ids) = Some ids) as Em.
  { clear. induction ids as [|i l IH]; [done|]. cbn. by rewrite IH. }
  rewrite Em in Hr. assert (t = gl_enum l) as -> by (unfold gl_type in Ht; by destruct t, (gl_enum l)).
  by eapply C42_targets_by_origin.
Qed.

(** ** Example: users in a table, with a link of all three multiplicities *)
Definition ex_users : table := Table [(s "id", ColInteger); (s "name", ColUnicode); (s "owner", ColInteger); (s "score", ColOther)] [s "id"].
Definition ex_kinds (n : N) : sql_kind := match n with 1%N => KFields ex_users | 2%N => KLinks | _ => KOther end.
Definition ex_mapped (n : N) (t : tenum) : N := (10 * n + match t with Maybe => 0 | One => 1 | Many => 2 end)%N.
Definition ex_node (fields : list gitem) : gnode := GNode (Some (s "User")) fields.
Definition ex_field (name : str) (t : option ty) : gitem := GF (GField name t (FPlain 1) []).
Definition ex_link (name : str) (t : tenum) (f : N) : gitem := GL (GLink name t (s "User") f (Some (s "id")) []).
Definition ex_items : list gnode :=
  [GNode None [GL (GLink (s "users") Many (s "User") 3 None [])];
   ex_node [ex_field (s "id") None; ex_field (s "name") None; ex_field (s "score") None; ex_field (s "owner") (Some (TOpt TInt));
            ex_link (s "chief") Maybe 2; ex_link (s "staff") Many 2; ex_link (s "twin") One 3]].
Definition ex_made : graph :=
  Graph [GNode None [GL (GLink (s "users") Many (s "User") 3 None [])];
         ex_node [ex_field (s "id") (Some TInt); ex_field (s "name") (Some TStr); ex_field (s "score") None; ex_field (s "owner") (Some (TOpt TInt));
                  ex_link (s "chief") Maybe 20; ex_link (s "staff") Many 22; ex_link (s "twin") One 3]] [].
Theorem C64_example :
  make_sql_graph ex_kinds ex_mapped ex_items [] = Ok ex_made /\
  make_sql_graph ex_kinds ex_mapped [ex_node [ex_field (s "age") None]] [] = Err KeyError /\
  is_ok (make_sql_graph ex_kinds ex_mapped [ex_node [ex_field (s "age") (Some TInt)]] []) /\
  make_sql_graph ex_kinds ex_mapped [ex_node [GF (GField (s "x") None (FPlain 2) [])]] [] = Err AttributeError.
Proof. split_and!; [by vm_compute|by vm_compute|by eexists; vm_compute|by vm_compute]. Qed.
(** C64, false of the code: to clients the type of a column says that there always is a number
    (NON_NULL), but None is served where the column is NULL, and for identifiers without a row. *)
Theorem C64_not_null_refuted : exists gn f,
  (forall dt, g_items ex_made = [GNode None [GL (GLink (s "users") Many (s "User") 3 None [])]; gn] /\
    gn_fields gn !! 0%nat = Some (GF f) /\ gf_name f = s "id" /\ type_ident dt false (gi_type (GF f)) = Ok (IdNonNull (IdScalar (s "Int")))) /\
  exists fq, make_fields_query ex_users None = Ok fq /\ answers ex_tbl ex_db /\ typed_rows ex_users ex_tbl /\
    fields_call ex_db All fq [QF (s "id") None None] [VInt 1; VInt 9] = Ret (VList [VList [VInt 1]; VList [VNone]]).
Proof.
  eexists _, _. split; [intros dt; split_and!; [reflexivity|reflexivity|reflexivity|reflexivity]|].
  eexists. split; [reflexivity|]. split_and!.
  - intros q. unfold ex_db. by rewrite <-Permutation_rev.
  - intros r c ct v Hr Hct Hv. unfold ex_tbl in Hr.
    repeat (apply elem_of_cons in Hr as [->|Hr]; [cbn in Hct, Hv|]); [..|by apply elem_of_nil in Hr].
    all: repeat (case_decide; [try (injection Hct as <-; injection Hv as <-; cbn; first [by left|right; by eexists])|try done]).
  - by vm_compute.
Qed.
(** What C64_not_null asks is met by this table, its first two columns and identifiers of its rows. *)
Theorem C64_not_null_example :
  let qfs := [QF (s "name") None None; QF (s "id") None None] in let ids := [VInt 4; VInt 1; VInt 4] in
  exists fq, make_fields_query ex_users None = Ok fq /\ sane two /\
    (forall q, q ∈ qfs -> q_name q ∈ map fst (tb_cols ex_users)) /\
    (forall i, i ∈ ids -> exists r, r ∈ ex_tbl /\ has_val r (fq_pk fq) i) /\
    (forall r q, r ∈ ex_tbl -> q ∈ qfs -> exists v, has_val r (q_name q) v) /\
    fields_call ex_db two fq qfs ids =
      Ret (VList [VList [VStr (s "d"); VInt 4]; VList [VStr (s "a"); VInt 1]; VList [VStr (s "d"); VInt 4]]).
Proof.
  cbv zeta. eexists. split; [reflexivity|]. split_and!.
  - intros [|[|n]] Hn; simpl; lia.
  - intros q Hq. rewrite !elem_of_cons, elem_of_nil in Hq. apply (bool_decide_unpack _).
    destruct Hq as [-> |[-> |[]]]; vm_compute; exact I.
  - intros i Hi. rewrite !elem_of_cons, elem_of_nil in Hi.
    destruct Hi as [-> |[-> |[-> |[]]]];
      [exists (ex_row 4 (s "d") (VInt 8))|exists (ex_row 1 (s "a") (VInt 7))|exists (ex_row 4 (s "d") (VInt 8))];
      (split; [unfold ex_tbl; by repeat constructor|split; [by vm_compute|done]]).
  - intros r q Hr Hq. unfold ex_tbl in Hr. rewrite !elem_of_cons, elem_of_nil in Hr. rewrite !elem_of_cons, elem_of_nil in Hq.
    destruct Hr as [-> |[-> |[-> |[-> |[]]]]], Hq as [-> |[-> |[]]]; (eexists; split; [by vm_compute|done]).
  - by vm_compute.
Qed.
