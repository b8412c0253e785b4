(** Proofs for C56: the objects met by queries about the schema. *)
From stdpp Require Import relations.
From Verif Require Import Base Val Types Query QuerySpec Graph Queue QueueSpec QueueProof Result Engine EngineSpec CostSpec CallSpec SubSpec SubJob Validate ValidateSpec
  PropValidate PropOptions GraphExt Introspect IntrospectSpec PropIntrospect PropIntroGraph PropIntroSound PropIntroList PropEndpoint IntroRun IntroRunSpec PropSub PropSubWf SubWfSpec.

Ltac each Hn Hx := unfold intro_items in Hn; rewrite !elem_of_cons, elem_of_nil in Hn;
  destruct Hn as [->|[->|[->|[->|[->|[->|[->|[]]]]]]]]; cbn [gn_fields] in Hx; rewrite !elem_of_cons, elem_of_nil in Hx;
  repeat match type of Hx with _ \/ _ => destruct Hx as [Hx|Hx] | False => destruct Hx end.

(** ** What is known of the identifiers *)
Section idents.
  Context (S : schema) (T : texts).
  Hypothesis Hco : coherent S.
  Hypothesis Hjson : json_defaults S T.
  Definition arg_fine (a : aident) : Prop :=
    (exists t, arg_type S a = Ok t /\ fine S t) /\ match a with ArgDirective n => n ∈ [s "skip"; s "include"] | _ => True end.
  Definition field_fine (f : fident) : Prop :=
    (exists t, field_type S f = Ok t /\ fine S t) /\ exists l, field_args S f = Ok l /\ forall a, a ∈ l -> arg_fine a.
  Definition obj_ok (nm : str) (i : val) : Prop :=
    (nm = s "__Type" -> exists t, i = enc_t t /\ fine S t) /\
    (nm = s "__Field" -> exists f, i = enc_f f /\ field_fine f) /\
    (nm = s "__InputValue" -> exists a, i = enc_a a /\ arg_fine a) /\
    (nm = s "__Directive" -> exists n, i = enc_t (IdDirective n) /\ n ∈ [s "skip"; s "include"]) /\
    nm <> s "__EnumValue".
  Lemma ok_type t : fine S t -> obj_ok (s "__Type") (enc_t t).
  Proof. intros Hf. unfold obj_ok. split_and!; try (intros He; discriminate He). eauto. Qed.
  Lemma ok_field f : field_fine f -> obj_ok (s "__Field") (enc_f f).
  Proof. intros Hf. unfold obj_ok. split_and!; try (intros He; discriminate He). eauto. Qed.
  Lemma ok_arg a : arg_fine a -> obj_ok (s "__InputValue") (enc_a a).
  Proof. intros Hf. unfold obj_ok. split_and!; try (intros He; discriminate He). eauto. Qed.
  Lemma ok_directive n : n ∈ [s "skip"; s "include"] -> obj_ok (s "__Directive") (enc_t (IdDirective n)).
  Proof. intros Hf. unfold obj_ok. split_and!; try (intros He; discriminate He). eauto. Qed.
  Lemma ok_schema i : obj_ok (s "__Schema") i.
  Proof. unfold obj_ok. split_and!; intros He; discriminate He. Qed.

  Lemma type_args f l a : field_args S f = Ok l -> a ∈ l -> forall n, a <> ArgDirective n.
  Proof.
    unfold field_args. destruct (dget f.1 (schema_nodes S)); [|intros [= <-] Ha; by apply elem_of_nil in Ha].
    destruct (schema_field S f); [|done]. intros [= <-] Ha. apply elem_of_list_fmap in Ha as (o & -> & _). done.
  Qed.
  Lemma fields_fine t : fine S t -> exists fs, type_fields S t = Ok fs /\ forall f, f ∈ fs -> field_fine f.
  Proof.
    intros Ht. destruct (fine_fields S Hco t Ht) as (fs & Hfs & Hall). exists fs. split; [done|]. intros f Hf.
    destruct (Hall f Hf) as (Hty & l & Hl & Ha). split; [done|]. exists l. split; [done|]. intros a Hin. split; [by apply Ha|].
    destruct a; try done. by destruct (type_args f l _ Hl Hin name).
  Qed.
  Lemma inputs_fine t : fine S t -> exists l, input_fields S t = Ok l /\ forall a, a ∈ l -> arg_fine a.
  Proof.
    intros Ht. destruct (fine_input S Hco t Ht) as (l & Hl & Ha). exists l. split; [done|]. intros a Hin. split; [by apply Ha|].
    destruct a; try done. unfold input_fields in Hl. destruct t; try (injection Hl as <-; by apply elem_of_nil in Hin).
    destruct (data_fields S n); [|done]. injection Hl as <-. by apply elem_of_list_fmap in Hin as (k & Hk & _).
  Qed.
  Lemma of_fine t t' : fine S t -> type_of_type t = Some t' -> fine S t'.
  Proof. destruct t; try done; intros Hf [= <-]; exact Hf. Qed.
  Lemma fine_no_directive t n : fine S t -> t <> IdDirective n.
  Proof. intros Hf ->. exact Hf. Qed.

  (** The dicts of the loaders *)
  Lemma type_info_ok t : fine S t -> exists d, type_info S T (enc_t t) = Ok d /\ dget (s "id") d = Some (enc_t t).
  Proof. intros Hf. unfold type_info. rewrite dec_enc_t. destruct t; try (eexists; split; [reflexivity|reflexivity]). by destruct Hf. Qed.
  Lemma field_info_ok f : field_fine f -> exists d, field_info S T (enc_f f) = Ok d /\ dget (s "id") d = Some (enc_f f) /\
    forall n, n ∈ [s "id"; s "name"; s "description"; s "isDeprecated"; s "deprecationReason"] -> is_Some (dget n d).
  Proof.
    intros [(t & Ht & _) _]. unfold field_info. rewrite dec_enc_f.
    assert (forall a b, let d := [(s "id", enc_f f); (s "name", a); (s "description", b); (s "isDeprecated", VBool false); (s "deprecationReason", VNone)] in
      dget (s "id") d = Some (enc_f f) /\ forall n, n ∈ [s "id"; s "name"; s "description"; s "isDeprecated"; s "deprecationReason"] -> is_Some (dget n d)) as Hd.
    { intros a b. cbn zeta. split; [reflexivity|]. intros n Hn. rewrite !elem_of_cons, elem_of_nil in Hn.
      destruct Hn as [->|[->|[->|[->|[->|[]]]]]]; eexists; reflexivity. }
    destruct (in_nodes S f.1) eqn:Ei.
    - unfold field_type in Ht. unfold in_nodes in Ei. apply bool_decide_eq_true, dget_is_Some in Ei as [gn Hg]. rewrite Hg in Ht.
      destruct (schema_field S f) as [x|]; [|done]. eexists. split; [reflexivity|]. apply Hd.
    - eexists. split; [reflexivity|]. apply Hd.
  Qed.
  Lemma arg_option_ok node field name t : arg_type S (ArgField node field name) = Ok t ->
    exists gn x o, dget node (schema_nodes S) = Some gn /\ x ∈ gn_fields gn /\ o ∈ gi_options x /\ arg_option S node field name = Ok o.
  Proof.
    cbn [arg_type]. unfold arg_option, schema_field. cbn [fst snd]. destruct (dget node (schema_nodes S)) as [gn|]; [|done].
    destruct (find_field gn field) as [x|] eqn:Ef; [|done]. cbn [from_opt].
    destruct (dget name (of_pairs _)) as [o|] eqn:Eo; [|done]. intros _. exists gn, x, o. split; [done|].
    split; [by eapply find_field_elem|]. split; [|done].
    unfold of_pairs in Eo. rewrite dget_dupdate in Eo. cbn [dget] in Eo. destruct (dget name (reverse _)) as [o'|] eqn:Er; [|done]. injection Eo as ->.
    apply dget_Some_elem in Er. rewrite elem_of_reverse in Er. apply elem_of_list_fmap in Er as (o'' & [= _ ->] & Ho). done.
  Qed.
  Lemma input_info_ok a : arg_fine a -> exists d, input_value_info S T (enc_a a) = Ok d /\ dget (s "id") d = Some (enc_a a) /\
    forall n, n ∈ [s "id"; s "name"; s "description"; s "defaultValue"] -> is_Some (dget n d).
  Proof.
    intros [(t & Ht & _) Hdir]. unfold input_value_info. rewrite dec_enc_a.
    assert (forall x y z, let d := [(s "id", enc_a a); (s "name", x); (s "description", y); (s "defaultValue", z)] in
      dget (s "id") d = Some (enc_a a) /\ forall n, n ∈ [s "id"; s "name"; s "description"; s "defaultValue"] -> is_Some (dget n d)) as Hd.
    { intros x y z. cbn zeta. split; [reflexivity|]. intros n Hn. rewrite !elem_of_cons, elem_of_nil in Hn.
      destruct Hn as [->|[->|[->|[->|[]]]]]; eexists; reflexivity. }
    destruct a as [node field name|n k|n].
    - destruct (arg_option_ok _ _ _ _ Ht) as (gn & x & o & Hg & Hx & Ho & ->).
      assert (exists d, match go_default o with VNothing => Ok VNone | v => tx_json T v end = Ok d) as (d & ->).
      { destruct (decide (go_default o = VNothing)) as [->|Hne]; [eauto|]. destruct (Hjson node gn x o Hg Hx Ho Hne) as [d Hdd].
        exists d. destruct (go_default o); done. }
      eexists. split; [reflexivity|]. apply Hd.
    - eexists. split; [reflexivity|]. apply Hd.
    - cbn in Hdir. rewrite !elem_of_cons, elem_of_nil in Hdir. destruct Hdir as [->|[->|[]]]; (eexists; split; [reflexivity|]; apply Hd).
  Qed.
End idents.

(** ** What the loaders say *)
Section said.
  Context (L : loaders) (S : schema) (T : texts) (D : data).
  Hypothesis Hco : coherent S.
  Hypothesis Hjson : json_defaults S T.
  Hypothesis HD : describes L S T D.
  Context (fv : gfield -> option val -> str -> opts -> val).
  Hypothesis Hfv : forall f m i n o, gf_func f = FPlain m -> fv f i n o = d_field D m i n o.

  Lemma from_dict (d : list (str * val)) n : is_Some (dget n d) -> exists v, from_opt KeyError (dget n d) = Ok v.
  Proof. intros [v ->]. by exists v. Qed.
  (** Rows: every field of a node of introspection has a value for the objects which are fine *)
  Lemma intro_row n f nm i : n ∈ intro_items L -> GF f ∈ gn_fields n -> gn_name n = Some nm -> obj_ok S nm i ->
    exists k row v, gf_func f = FPlain (ld_intro L k) /\ row_of S T k i = Ok row /\ row (gf_name f) = Ok v.
  Proof.
    intros Hn Hx Hnm (O1 & O2 & O3 & O4 & O5).
    each Hn Hx; try discriminate Hx; injection Hx as ->; injection Hnm as <-; cbn [Introspect.fld gf_func gf_name].
    1-4: destruct (O1 eq_refl) as (t & -> & Ht); destruct (type_info_ok S T t Ht) as (d & Hd & _);
      exists 1%N; cbn [row_of]; rewrite Hd; eauto.
    1-5: destruct (O2 eq_refl) as (x & -> & Hf); destruct (field_info_ok S T x Hf) as (d & Hd & _ & Hall);
      exists 6%N; cbn [row_of]; rewrite Hd; 
      match goal with |- exists row v, _ /\ _ /\ row ?z = Ok v =>
        destruct (from_dict d z) as [v Hv]; [apply Hall; apply (bool_decide_unpack _); vm_compute; exact I|]; eexists _, v; (split; [done|]; split; [reflexivity|exact Hv]) end.
    1-4: destruct (O3 eq_refl) as (x & -> & Hf); destruct (input_info_ok S T Hjson x Hf) as (d & Hd & _ & Hall);
      exists 9%N; cbn [row_of]; rewrite Hd; 
      match goal with |- exists row v, _ /\ _ /\ row ?z = Ok v =>
        destruct (from_dict d z) as [v Hv]; [apply Hall; apply (bool_decide_unpack _); vm_compute; exact I|]; eexists _, v; (split; [done|]; split; [reflexivity|exact Hv]) end.
    1-3: destruct (O4 eq_refl) as (x & -> & Hf); exists 11%N; do 2 eexists; (split; [done|]; split; reflexivity).
    all: by destruct O5.
  Qed.

  Lemma seq_list (l : list val) : is_Some (seq_of (VList l)).
  Proof. by eexists. Qed.
  Lemma req_value gn r f k i i' : find_field gn r = Some (GF f) -> gf_func f = FPlain (ld_intro L k) ->
    (exists row, row_of S T k i = Ok row /\ row r = Ok i') -> field_value fv gn (Some i) r None = i'.
  Proof.
    intros Hf Hp (row & Hr & Hv). unfold field_value. rewrite Hf, (Hfv _ _ _ _ _ Hp), (ds_field _ _ _ _ HD), Hr, Hv. done.
  Qed.
  Lemma type_id t : fine S t -> exists row, row_of S T 1 (enc_t t) = Ok row /\ row (s "id") = Ok (enc_t t).
  Proof. intros Ht. destruct (type_info_ok S T t Ht) as (d & Hd & Hi). cbn [row_of]. rewrite Hd. eexists. split; [done|]. cbn beta. by rewrite Hi. Qed.
  Lemma field_id f : field_fine S f -> exists row, row_of S T 6 (enc_f f) = Ok row /\ row (s "id") = Ok (enc_f f).
  Proof. intros Ht. destruct (field_info_ok S T f Ht) as (d & Hd & Hi & _). cbn [row_of]. rewrite Hd. eexists. split; [done|]. cbn beta. by rewrite Hi. Qed.
  Lemma arg_id a : arg_fine S a -> exists row, row_of S T 9 (enc_a a) = Ok row /\ row (s "id") = Ok (enc_a a).
  Proof. intros Ht. destruct (input_info_ok S T Hjson a Ht) as (d & Hd & Hi & _). cbn [row_of]. rewrite Hd. eexists. split; [done|]. cbn beta. by rewrite Hi. Qed.

  (** Links lead to objects which are fine, as their types say, and the loader does not raise *)
  Definition link_fine (gn : gnode) (i : option val) (l : glink) (q : qitem) : Prop :=
    let v := link_value fv D gn i l q in
    match gl_enum l with Maybe => True | One => v <> VNothing | Many => is_Some (seq_of v) end /\
    (forall j, j ∈ targets l v -> obj_ok S (gl_node l) j) /\
    exists k, gl_func l = ld_intro L k /\ takes_options k (link_opts l q) = true /\
      match gl_requires l with
      | None => link_root S k (link_opts l q) = Ok v
      | Some r => link_of S k (field_value fv gn i r None) = Ok v
      end.
  Lemma fine_req gn i l q k r x v : gl_func l = ld_intro L k -> gl_requires l = Some r -> field_value fv gn i r None = x -> link_of S k x = Ok v ->
    takes_options k (link_opts l q) = true ->
    match gl_enum l with Maybe => True | One => v <> VNothing | Many => is_Some (seq_of v) end ->
    (forall j, j ∈ targets l v -> obj_ok S (gl_node l) j) -> link_fine gn i l q.
  Proof.
    intros Hk Hr Hx Hv Ht He Hj. unfold link_fine.
    assert (link_value fv D gn i l q = v) as Hlv.
    { unfold link_value, link_arg. rewrite Hr, Hk, (ds_link _ _ _ _ HD), Hx, Hv. done. }
    rewrite Hlv. split; [done|]. split; [done|]. exists k. rewrite Hr, Hx. done.
  Qed.
  Lemma fine_root gn i l q k v : gl_func l = ld_intro L k -> gl_requires l = None -> link_root S k (link_opts l q) = Ok v ->
    takes_options k (link_opts l q) = true ->
    match gl_enum l with Maybe => True | One => v <> VNothing | Many => is_Some (seq_of v) end ->
    (forall j, j ∈ targets l v -> obj_ok S (gl_node l) j) -> link_fine gn i l q.
  Proof.
    intros Hk Hr Hv Ht He Hj. unfold link_fine.
    assert (link_value fv D gn i l q = v) as Hlv.
    { unfold link_value, link_arg. rewrite Hr, Hk, (ds_root _ _ _ _ HD), Hv. done. }
    rewrite Hlv. split; [done|]. split; [done|]. exists k. by rewrite Hr.
  Qed.
  Lemma targets_maybe name to f r os (o : option tident) j :
    j ∈ targets (GLink name Graph.Maybe to f r os) (vmaybe o) -> exists t, o = Some t /\ j = enc_t t.
  Proof.
    unfold targets. cbn [gl_enum]. destruct o as [t|]; cbn [vmaybe]; [|intros Hj; by apply elem_of_nil in Hj].
    assert (match enc_t t with VNothing => [] | _ => [enc_t t] end = [enc_t t]) as -> by by destruct t.
    intros Hj%elem_of_list_singleton. eauto.
  Qed.
  Lemma targets_one name to f r os v j : j ∈ targets (GLink name One to f r os) v -> j = v.
  Proof. apply elem_of_list_singleton. Qed.
  Lemma targets_many {A} (enc : A -> val) name to f r os l j : j ∈ targets (GLink name Many to f r os) (VList (map enc l)) -> exists a, a ∈ l /\ j = enc a.
  Proof. unfold targets. cbn [gl_enum]. unfold seq_items. cbn [seq_of]. intros (a & -> & Ha)%elem_of_list_fmap. eauto. Qed.
  Lemma enc_something t : enc_t t <> VNothing.
  Proof. by destruct t. Qed.

  Lemma query_fine : fine S root_query_type.
  Proof.
    left. unfold QUERY_ROOT_NAME, schema_nodes. apply dkeys_of_pairs. rewrite !map_app, !elem_of_app. right. left. apply elem_of_list_singleton. done.
  Qed.
  Lemma mutation_fine t : root_mutation_type S = Some t -> fine S t.
  Proof.
    unfold root_mutation_type. destruct (sc_mutation S) as [m|] eqn:Em; [|done]. intros [= <-]. left. unfold schema_nodes.
    apply dkeys_of_pairs. rewrite Em, !map_app, !elem_of_app. right. right. apply elem_of_list_singleton. done.
  Qed.
  Lemma intro_link n l gn i q : n ∈ intro_items L -> GL l ∈ gn_fields n ->
    gn_name n = None \/ (gn = n /\ exists nm i', gn_name n = Some nm /\ i = Some i' /\ obj_ok S nm i') ->
    (forall op, op ∈ gl_opts l -> is_Some (dget (go_name op) (opt_dict (q_opts q)))) -> link_fine gn i l q.
  Proof.
    intros Hn Hx Hob Hname.
    each Hn Hx; try discriminate Hx; injection Hx as ->; cbn [gn_name] in Hob; cbn [gl_opts] in Hname.
    all: try (destruct Hob as [Hob|(-> & nm & i' & [= <-] & -> & O1 & O2 & O3 & O4 & O5)]; [discriminate Hob|]).
    (* __Type *)
    1: destruct (O1 eq_refl) as (t & -> & Ht); destruct (fields_fine S Hco t Ht) as (fs & Hfs & Hff);
      apply (fine_req _ _ _ _ 2%N (s "id") (enc_t t) (VList (map enc_f fs)));
      [done|done|eapply req_value; [reflexivity|reflexivity|by apply type_id]|cbn [link_of]; by rewrite dec_enc_t, Hfs|done|apply seq_list|
       intros j (f & Hf & ->)%targets_many; apply ok_field; by apply Hff].
    1-3: destruct (O1 eq_refl) as (t & -> & Ht);
      apply (fine_req _ _ _ _ 3%N (s "id") (enc_t t) (VList []));
      [done|done|eapply req_value; [reflexivity|reflexivity|by apply type_id]|done|done|apply seq_list|intros j Hj; by apply elem_of_nil in Hj].
    1: destruct (O1 eq_refl) as (t & -> & Ht); destruct (inputs_fine S Hco t Ht) as (fs & Hfs & Hff);
      apply (fine_req _ _ _ _ 4%N (s "id") (enc_t t) (VList (map enc_a fs)));
      [done|done|eapply req_value; [reflexivity|reflexivity|by apply type_id]|cbn [link_of]; by rewrite dec_enc_t, Hfs|done|apply seq_list|
       intros j (f & Hf & ->)%targets_many; apply ok_arg; by apply Hff].
    1: destruct (O1 eq_refl) as (t & -> & Ht);
      apply (fine_req _ _ _ _ 5%N (s "id") (enc_t t) (vmaybe (type_of_type t)));
      [done|done|eapply req_value; [reflexivity|reflexivity|by apply type_id]|cbn [link_of]; by rewrite dec_enc_t|done|done|
       intros j (t' & Ht' & ->)%targets_maybe; apply ok_type; by eapply of_fine].
    (* __Field *)
    1: destruct (O2 eq_refl) as (f & -> & Hf); pose proof Hf as [_ (l & Hl & Ha)];
      apply (fine_req _ _ _ _ 7%N (s "id") (enc_f f) (VList (map enc_a l)));
      [done|done|eapply req_value; [reflexivity|reflexivity|by apply field_id]|cbn [link_of]; by rewrite dec_enc_f, Hl|done|apply seq_list|
       intros j (a & Hin & ->)%targets_many; apply ok_arg; by apply Ha].
    1: destruct (O2 eq_refl) as (f & -> & Hf); pose proof Hf as [(t & Ht & Hfi) _];
      apply (fine_req _ _ _ _ 8%N (s "id") (enc_f f) (enc_t t));
      [done|done|eapply req_value; [reflexivity|reflexivity|by apply field_id]|cbn [link_of]; by rewrite dec_enc_f, Ht|done|apply enc_something|
       intros j ->%targets_one; by apply ok_type].
    (* __InputValue *)
    1: destruct (O3 eq_refl) as (a & -> & Ha); pose proof Ha as [(t & Ht & Hfi) _];
      apply (fine_req _ _ _ _ 10%N (s "id") (enc_a a) (enc_t t));
      [done|done|eapply req_value; [reflexivity|reflexivity|by apply arg_id]|cbn [link_of]; by rewrite dec_enc_a, Ht|done|apply enc_something|
       intros j ->%targets_one; by apply ok_type].
    (* __Directive *)
    1: destruct (O4 eq_refl) as (n & -> & Hn);
      apply (fine_req _ _ _ _ 12%N (s "name") (VStr n) (VList (map enc_a [ArgDirective n])));
      [done|done|eapply req_value; [reflexivity|reflexivity|by eexists]|done|done|apply seq_list|
       intros j (a & ->%elem_of_list_singleton & ->)%targets_many; apply ok_arg; split; [|done];
         exists (IdNonNull (IdScalar (s "Boolean"))); split; [done|]; unfold fine; cbn [base];
         apply (bool_decide_unpack _); vm_compute; exact I].
    (* __Schema *)
    1: apply (fine_root _ _ _ _ 14%N (VList (map enc_t (root_schema_types S)))); [done|done|done|done|apply seq_list|
       intros j (t & Ht & ->)%targets_many; apply ok_type; by apply listed_fine].
    1: apply (fine_root _ _ _ _ 15%N (enc_t root_query_type)); [done|done|done|done|apply enc_something|
       intros j ->%targets_one; apply ok_type; apply query_fine].
    1: apply (fine_root _ _ _ _ 16%N (vmaybe (root_mutation_type S))); [done|done|done|done|done|
       intros j (t & Ht & ->)%targets_maybe; apply ok_type; by apply mutation_fine].
    1: apply (fine_root _ _ _ _ 17%N (vmaybe None)); [done|done|done|done|done|intros j (t & Ht & ->)%targets_maybe; done].
    1: apply (fine_root _ _ _ _ 18%N (VList (map enc_t root_directives))); [done|done|done|done|apply seq_list|
       intros j (t & Ht & ->)%targets_many; unfold root_directives in Ht; rewrite !elem_of_cons, elem_of_nil in Ht;
       destruct Ht as [->|[->|[]]]; apply ok_directive; apply (bool_decide_unpack _); vm_compute; exact I].
    (* the root *)
    1: apply (fine_root _ _ _ _ 19%N VNone); [done|done|done|done|done|intros j ->%targets_one; apply ok_schema].
    1: destruct (Hname (GOption (s "name") (Some TStr) VNothing)) as [x Hx]; [left|]; cbn [go_name] in Hx;
       apply (fine_root _ _ _ _ 20%N (match x with VStr n => vmaybe (type_link S n) | _ => VNothing end)); [done|done| |done|done|].
    - cbn [link_root link_opts gl_opts]. unfold link_opts. cbn [gl_opts]. rewrite Hx. by destruct x.
    - intros j Hj. destruct x; try (cbn in Hj; by apply elem_of_nil in Hj).
      apply targets_maybe in Hj as (t & Ht & ->). apply ok_type. unfold type_link in Ht. case_bool_decide; [|done]. injection Ht as <-. by left.
  Qed.
End said.

Lemma loader_in G gn name go f : node_of G gn -> find_field gn name = Some go -> fkey_of go = KPlain f -> loaders_of G f.
Proof.
  intros Hno [Hx _]%find_field_elem Hk. destruct Hno as [->|[m Hn]].
  - apply root_elem in Hx as (n & Hn & _ & Hx). by exists n, go.
  - apply find_node_elem in Hn as [Hn _]. by exists gn, go.
Qed.
