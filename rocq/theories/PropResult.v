(** Theorems about results and their denormalization (C17 - C20): hiku/result.py and
    hiku/denormalize. *)
From Verif Require Import Base Val Types Query QuerySpec QueryProof Graph Result Engine EngineSpec Examples ExEngine.

(** ** Specification *)
Section spec.
  Context `{Hasher} (g : graph) (idx : index).

  (** The item [n] of a mapping *)
  Definition has_item (v : val) (n : str) (x : val) : Prop := exists d, (v = VDict d \/ v = VMap d) /\ dget (VStr n) d = Some x.
  (** The selected parts of the value of a field which holds records *)
  Inductive parts : qitem -> ty -> val -> vtree -> Prop :=
  | pt_field n o a t v : parts (QF n o a) t v (TP (PRaw (IVal v)))
  | pt_seq n sub ord o a t v l ys :
      iter_of v = Some l -> Forall2 (parts (QL n sub ord o a) t) l ys ->
      parts (QL n sub ord o a) (TSeq t) v (TL ys)
  | pt_none n sub ord o a t : parts (QL n sub ord o a) (TOpt t) VNone (TP (PRaw (IVal VNone)))
  | pt_some n sub ord o a t v y : v <> VNone -> parts (QL n sub ord o a) t v y -> parts (QL n sub ord o a) (TOpt t) v y
  | pt_rec n sub ord o a fs v d :
      Forall2 (fun q e => e.1 = result_key q /\
                 exists ft fv, dget (q_name q) fs = Some ft /\ has_item v (q_name q) fv /\ parts q ft fv e.2) sub d ->
      parts (QL n sub ord o a) (TRec fs) v (TO d).

  (** [mirror gn ref q e]: [e] is the entry for the member [q] of the object [ref] of [gn]:
      the stored value of a field, an object with one entry for every member of a link's
      query, a list of objects in the order of the stored references, [None]. *)
  Inductive mirror : gnode -> str * val -> qitem -> str * vtree -> Prop :=
  | mi_field gn ref n o a go v :
      find_field gn n = Some go -> dget (ref.1, ref.2, index_key (QF n o a)) idx = Some v ->
      mirror gn ref (QF n o a) (result_key (QF n o a), TP (PRaw v))
  | mi_absent gn ref n sub ord o a l gn' :
      find_field gn n = Some (GL l) -> find_node g (gl_node l) = Some gn' -> gl_enum l = Maybe ->
      dget (ref.1, ref.2, index_key (QL n sub ord o a)) idx = Some (IVal VNone) ->
      mirror gn ref (QL n sub ord o a) (result_key (QL n sub ord o a), TP (PRaw (IVal VNone)))
  | mi_object gn ref n sub ord o a l gn' m i d :
      find_field gn n = Some (GL l) -> find_node g (gl_node l) = Some gn' -> gl_enum l <> Many ->
      dget (ref.1, ref.2, index_key (QL n sub ord o a)) idx = Some (IRef m i) ->
      Forall2 (mirror gn' (m, i)) sub d ->
      mirror gn ref (QL n sub ord o a) (result_key (QL n sub ord o a), TO d)
  | mi_list gn ref n sub ord o a l gn' refs ds :
      find_field gn n = Some (GL l) -> find_node g (gl_node l) = Some gn' -> gl_enum l = Many ->
      dget (ref.1, ref.2, index_key (QL n sub ord o a)) idx = Some (IRefs refs) ->
      Forall2 (fun r d => Forall2 (mirror gn' r) sub d) refs ds ->
      mirror gn ref (QL n sub ord o a) (result_key (QL n sub ord o a), TL (map TO ds))
  | mi_parts gn ref n sub ord o a f t v y :
      find_field gn n = Some (GF f) -> get_type (g_dtypes g) (gf_ty f) = Ok t ->
      dget (ref.1, ref.2, index_key (QL n sub ord o a)) idx = Some (IVal v) ->
      parts (QL n sub ord o a) t v y ->
      mirror gn ref (QL n sub ord o a) (result_key (QL n sub ord o a), y).

  (** Selections inside of record fields: distinct names, no aliases *)
  Fixpoint plain_parts (q : qitem) : Prop :=
    match q with
    | QF _ _ a => a = None
    | QL _ sub _ _ a => a = None /\ NoDup (map result_key sub) /\ foldr (fun q P => plain_parts q /\ P) True sub
    end.
  (** Result keys of every node of the query are distinct. *)
  Fixpoint well_keyed (gn : gnode) (q : qitem) : Prop :=
    match q with
    | QF _ _ _ => True
    | QL n sub _ _ _ =>
        NoDup (map result_key sub) /\
        match find_field gn n with
        | Some (GL l) => match find_node g (gl_node l) with
                         | Some gn' => foldr (fun q P => well_keyed gn' q /\ P) True sub
                         | None => True
                         end
        | Some (GF _) => foldr (fun q P => plain_parts q /\ P) True sub
        | None => True
        end
    end.
End spec.
Lemma has_item_get v n x : has_item v n x <-> py_getitem v n = Ok x.
Proof.
  unfold has_item, py_getitem, from_opt. split.
  - intros (d & [-> | ->] & ->); done.
  - destruct v; try done; (destruct (dget (VStr n) d) as [y|] eqn:E; [|done]); intros [= <-]; exists d; split_and!; [by left|done|by right|done].
Qed.


(** The result without the entries of [__typename] *)
Section untype.
  Variable u : qitem -> vtree -> vtree.
  Fixpoint untype_entries (sub : list qitem) (d : list (str * vtree)) : list (str * vtree) :=
    match sub, d with
    | q :: sub', (k, t) :: d' => if decide (q_name q = s "__typename") then untype_entries sub' d' else (k, u q t) :: untype_entries sub' d'
    | _, _ => []
    end.
End untype.
Fixpoint untype (q : qitem) (t : vtree) : vtree :=
  match q with
  | QF _ _ _ => t
  | QL _ sub _ _ _ =>
      match t with
      | TO d => TO (untype_entries untype sub d)
      | TL ts => TL (map (fun t => match t with TO d => TO (untype_entries untype sub d) | _ => t end) ts)
      | TP p => TP p
      end
  end.
(** Every [__typename] entry of the result for the member [q] of the node [gn], whose type is
    named [tn], holds the name of the type of its object. *)
Inductive named (g : graph) : str -> gnode -> qitem -> str * vtree -> Prop :=
| nd_typename tn gn o a : named g tn gn (QF (s "__typename") o a) (result_key (QF (s "__typename") o a), TP (PRaw (IVal (VStr tn))))
| nd_field tn gn n o a p : n <> s "__typename" -> named g tn gn (QF n o a) (result_key (QF n o a), TP p)
| nd_none tn gn n sub ord o a : named g tn gn (QL n sub ord o a) (result_key (QL n sub ord o a), TP (PRaw (IVal VNone)))
| nd_object tn gn n sub ord o a l gn' d :
    find_field gn n = Some (GL l) -> find_node g (gl_node l) = Some gn' ->
    Forall2 (named g (gl_node l) gn') sub d -> named g tn gn (QL n sub ord o a) (result_key (QL n sub ord o a), TO d)
| nd_list tn gn n sub ord o a l gn' ds :
    find_field gn n = Some (GL l) -> find_node g (gl_node l) = Some gn' ->
    Forall (fun d => Forall2 (named g (gl_node l) gn') sub d) ds ->
    named g tn gn (QL n sub ord o a) (result_key (QL n sub ord o a), TL (map TO ds)).
(** No link is called [__typename]. *)
Fixpoint typename_is_field (q : qitem) : Prop :=
  match q with
  | QF _ _ _ => True
  | QL n sub _ _ _ => n <> s "__typename" /\ foldr (fun q P => typename_is_field q /\ P) True sub
  end.

Lemma foldr_and {A} (P : A -> Prop) l : foldr (fun x Q => P x /\ Q) True l <-> Forall P l.
Proof.
  induction l as [|x l IH]; simpl; [split; [constructor|done]|]. rewrite IH. split; [intros [? ?]; by constructor|].
  intros Hf. inversion Hf; subst. done.
Qed.

Lemma Forall2_impl_in {A B} (P Q : A -> B -> Prop) l k :
  Forall2 P l k -> (forall x y, x ∈ l -> P x y -> Q x y) -> Forall2 Q l k.
Proof.
  intros HP. induction HP as [|x y l k Hxy HP IH]; intros HQ; constructor; [apply HQ; [left|done]|].
  apply IH. intros. apply HQ; [by right|done].
Qed.

Section thms.
  Context `{Hasher} (g : graph) (idx : index).

  (** ** C18 *)
  Lemma q_result_map_get (q : qnode) f : NoDup (map result_key (qfields q)) -> f ∈ qfields q -> dget (result_key f) (q_result_map q) = Some f.
  Proof.
    intros Hn Hf. unfold q_result_map.
    assert (dkeys (map (fun f => (result_key f, f)) (qfields q)) = map result_key (qfields q)) as Hk by (unfold dkeys; by rewrite map_map).
    rewrite of_pairs_NoDup by by rewrite Hk. apply dget_NoDup; [by rewrite Hk|]. apply elem_of_list_fmap. by exists f.
  Qed.

  (** C18: a requested key gives the stored value of that member, as objects if it is a link
      whose references were stored; data which is missing is an [AssertionError]. *)
  Theorem C18_requested_key ref (q : qnode) f :
    NoDup (map result_key (qfields q)) -> f ∈ qfields q ->
    proxy_get idx ref q (result_key f) =
      match dget (ref.1, ref.2, index_key f) idx with
      | None => Err AssertionError
      | Some v => if q_is_link f then
                    match v with
                    | IRef n i => Ok (PProxy (n, i) (q_node f))
                    | IRefs (r :: rs) => Ok (PList (r :: rs) (q_node f))
                    | _ => Ok (PRaw v)
                    end
                  else Ok (PRaw v)
      end /\
    proxy_getattr idx ref q (result_key f) = proxy_get idx ref q (result_key f).
  Proof.
    intros Hn Hf.
    assert (proxy_get idx ref q (result_key f) =
      match dget (ref.1, ref.2, index_key f) idx with
      | None => Err AssertionError
      | Some v => if q_is_link f then
                    match v with
                    | IRef n i => Ok (PProxy (n, i) (q_node f))
                    | IRefs (r :: rs) => Ok (PList (r :: rs) (q_node f))
                    | _ => Ok (PRaw v)
                    end
                  else Ok (PRaw v)
      end) as Heq.
    { unfold proxy_get. rewrite (q_result_map_get q f Hn Hf). destruct (dget (ref.1, ref.2, index_key f) idx) as [v|]; [|done]. by destruct f. }
    split; [done|]. unfold proxy_getattr. rewrite Heq. destruct (dget (ref.1, ref.2, index_key f) idx) as [v|]; [|done].
    destruct (q_is_link f); [|done]. by destruct v as [| |[|]].
  Qed.
  (** ... any other key is refused, whatever was stored. *)
  Theorem C18_other_key ref (q : qnode) key :
    key ∉ map result_key (qfields q) ->
    proxy_get idx ref q key = Err KeyError /\ proxy_getattr idx ref q key = Err AttributeError.
  Proof.
    intros Hk. assert (dget key (q_result_map q) = None) as Hd.
    { destruct (dget key (q_result_map q)) as [f|] eqn:Ef; [|done]. exfalso. apply Hk.
      unfold q_result_map, of_pairs in Ef. rewrite dget_dupdate in Ef.
      destruct (dget key (reverse _)) as [f1|] eqn:E1; [|done]. apply dget_Some_elem in E1.
      apply elem_of_reverse, elem_of_list_fmap in E1 as (f' & [= -> ->] & Hf'). apply elem_of_list_fmap. by exists f'. }
    unfold proxy_getattr, proxy_get. by rewrite Hd.
  Qed.

  (** ** C17 *)
  Lemma mirror_key gn ref q e : mirror g idx gn ref q e -> e.1 = result_key q.
  Proof. by destruct 1. Qed.
  Lemma mirror_keys gn ref sub d : Forall2 (mirror g idx gn ref) sub d -> map fst d = map result_key sub.
  Proof. induction 1 as [|q e sub d Hq _ IH]; [done|]. simpl. by rewrite IH, (mirror_key _ _ _ _ Hq). Qed.

  Lemma denorm_type_parts q : plain_parts q \/ (exists n sub ord o a, q = QL n sub ord o a /\ NoDup (map result_key sub) /\ Forall plain_parts sub) ->
    forall t v y, denorm_type q t v = Ok y <-> parts q t v y.
  Proof.
    induction q as [n o a|n sub ord o a IH] using qitem_ind'; intros Hp.
    { intros t v y. simpl. split; [intros [= <-]; constructor|]. by inversion 1. }
    assert (NoDup (map result_key sub) /\ Forall plain_parts sub) as [Hn Hs].
    { destruct Hp as [(_ & Hn & Hs)|(? & ? & ? & ? & ? & [= <- <- <- <- <-] & Hn & Hs)]; [|done]. split; [done|by apply foldr_and]. }
    clear Hp.
    assert (forall q, plain_parts q -> result_key q = q_name q) as Hk.
    { intros [n1 o1 a1|n1 s1 r1 o1 a1]; simpl; [intros ->; done|intros (-> & _); done]. }
    assert (forall t v y, denorm_type (QL n sub ord o a) (TRec t) v = Ok y <-> parts (QL n sub ord o a) (TRec t) v y) as Hrec.
    { intros fs v y. simpl.
      set (F := fun f => match dget (q_name f) fs with None => Err KeyError | Some ft =>
                  match py_getitem v (q_name f) with Err e => Err e | Ok fv =>
                  match denorm_type f ft fv with Ok y => Ok (q_name f, y) | Err e => Err e end end end).
      assert (forall f e, f ∈ sub -> F f = Ok e <-> (e.1 = result_key f /\
         exists ft fv, dget (q_name f) fs = Some ft /\ has_item v (q_name f) fv /\ parts f ft fv e.2)) as HF.
      { intros f e Hf. rewrite Forall_forall in IH, Hs. rewrite (Hk f (Hs f Hf)). unfold F. destruct e as [k y']. simpl. split.
        - destruct (dget (q_name f) fs) as [ft|]; [|done]. destruct (py_getitem v (q_name f)) as [fv|] eqn:Eg; [|done].
          destruct (denorm_type f ft fv) as [y0|] eqn:Ed; [|done]. intros [= <- <-]. split; [done|]. exists ft, fv.
          split; [done|]. split; [by apply has_item_get|]. apply (IH f Hf); [|done]. left. by apply Hs.
        - intros (-> & ft & fv & -> & Hi & Hy). apply has_item_get in Hi. rewrite Hi. apply (IH f Hf) in Hy; [by rewrite Hy|]. left. by apply Hs. }
      assert (forall d, mapR F sub = Ok d <-> Forall2 (fun q e => e.1 = result_key q /\
                 exists ft fv, dget (q_name q) fs = Some ft /\ has_item v (q_name q) fv /\ parts q ft fv e.2) sub d) as HM.
      { intros d. rewrite mapR_ok. split; intros H2; (eapply Forall2_impl_in; [exact H2|]); intros f e Hf He; by apply HF. }
      assert (forall d, mapR F sub = Ok d -> of_pairs d = d) as Hop.
      { intros d Hd%HM. apply of_pairs_NoDup. unfold dkeys.
        assert (map fst d = map result_key sub) as ->; [|done]. clear -Hd.
        induction Hd as [|q e sub d [Hq _] _ IHd]; [done|]. simpl. by rewrite Hq, IHd. }
      split.
      - destruct (mapR F sub) as [d|] eqn:Ed; [|done]. intros [= <-]. rewrite (Hop _ eq_refl). constructor. by apply HM.
      - inversion 1 as [| | | |? ? ? ? ? ? ? d Hd]; subst. apply HM in Hd. rewrite Hd. by rewrite (Hop _ Hd). }
    assert (forall t v y, denorm_type (QL n sub ord o a) (TSeq t) v = Ok y <->
      exists l ys, iter_of v = Some l /\ mapR (denorm_type (QL n sub ord o a) t) l = Ok ys /\ y = TL ys) as Hseq.
    { intros t v y.
      change (denorm_type (QL n sub ord o a) (TSeq t) v) with (match iter_of v with None => Err TypeError | Some l =>
        match mapR (denorm_type (QL n sub ord o a) t) l with Ok ys => Ok (TL ys) | Err e => Err e end end).
      destruct (iter_of v) as [l|]; [|split; [done|by intros (? & ? & ? & _)]]. split.
      - destruct (mapR _ l) as [ys|] eqn:El; [intros [= <-]; eauto|done].
      - intros (l' & ys & [= <-] & -> & ->). done. }
    induction t as [| | | | | |t IHt|t IHt| |fs _|] using ty_ind'; intros v y; try (split; [done|by inversion 1]).
    - change (denorm_type (QL n sub ord o a) (TOpt t) v) with (match v with VNone => Ok (TP (PRaw (IVal VNone))) | _ => denorm_type (QL n sub ord o a) t v end).
      destruct (decide (v = VNone)) as [->|Hv].
      + split; [intros [= <-]; constructor|]. by inversion 1.
      + assert (match v with VNone => Ok (TP (PRaw (IVal VNone))) | _ => denorm_type (QL n sub ord o a) t v end = denorm_type (QL n sub ord o a) t v) as -> by by destruct v.
        rewrite IHt. split; [by constructor|]. inversion 1; subst; done.
    - rewrite Hseq. split.
      + intros (l & ys & Hl & Hm & ->). apply mapR_ok in Hm. econstructor; [exact Hl|]. eapply Forall2_impl; [exact Hm|].
        intros. by apply IHt.
      + inversion 1 as [|? ? ? ? ? ? ? l ys Hl Hm| | |]; subst. exists l, ys. split; [done|]. split; [|done].
        apply mapR_ok. eapply Forall2_impl; [exact Hm|]. intros. by apply IHt.
    - apply Hrec.
  Qed.

  Lemma denorm_mirror q : forall gn ref pn e, well_keyed g gn q -> NoDup (map result_key (qfields pn)) -> q ∈ qfields pn ->
    denorm g idx gn ref pn q = Ok e <-> mirror g idx gn ref q e.
  Proof.
    induction q as [n o a|n sub ord o a IH] using qitem_ind'; intros gn ref pn e Hw Hn Hin.
    - cbn [denorm q_name]. destruct (C18_requested_key ref pn _ Hn Hin) as [Hp _]. cbn [q_is_link] in Hp. rewrite Hp.
      destruct (find_field gn n) as [go|] eqn:Ef; [|split; [done|inversion 1; congruence]].
      destruct (dget (ref.1, ref.2, index_key (QF n o a)) idx) as [v|] eqn:Ed; [|split; [done|inversion 1; subst]].
      + split; [intros [= <-]; by econstructor|]. inversion 1 as [? ? ? ? ? ? v' Hf Hd| | | |]; subst.
        rewrite Ed in Hd. by injection Hd as <-.
      + exfalso. match goal with h : dget _ _ = Some _ |- _ => exact (eq_ind None (fun x => match x with None => True | Some _ => False end) I _ (eq_trans (eq_sym Ed) h)) end.
    - set (q := QL n sub ord o a) in *. destruct (C18_requested_key ref pn _ Hn Hin) as [Hp _]. simpl (q_is_link q) in Hp. cbv iota in Hp.
      unfold q at 1. cbn [denorm q_name]. fold q. rewrite Hp. cbn [well_keyed] in Hw. destruct Hw as [Hns Hw].
      destruct (find_field gn n) as [[f|l]|] eqn:Ef; [| |split; [done|inversion 1; congruence]].
      + (* record field *)
        assert (Forall plain_parts sub) as Hps by by apply foldr_and.
        pose proof (denorm_type_parts q ltac:(right; unfold q; eauto 10)) as HP.
        destruct (dget (ref.1, ref.2, index_key q) idx) as [v|] eqn:Ed.
        2: { split; [done|]. intros Hm. exfalso. inversion Hm; subst; match goal with h : dget _ _ = Some _ |- _ => discriminate (eq_trans (eq_sym Ed) h) end. }
        destruct (get_type (g_dtypes g) (gf_ty f)) as [t|] eqn:Et.
        2: { split.
             - by destruct v as [| |[|]].
             - inversion 1; subst; congruence. }
        split.
        * destruct v as [v| |[|]]; try done. destruct (denorm_type q t v) as [y|] eqn:Ey; [|done].
          intros [= <-]. eapply mi_parts; [exact Ef|exact Et|exact Ed|]. by apply HP.
        * intros Hm. inversion Hm; subst; try congruence.
          match goal with h1 : find_field gn n = Some (GF ?f0), h2 : get_type _ _ = Ok ?t0, h3 : dget _ idx = Some (IVal ?v0) |- _ =>
            rewrite Ef in h1; injection h1 as <-; rewrite Et in h2; injection h2 as <-; pose proof (eq_trans (eq_sym Ed) h3) as Hv; injection Hv as -> end.
          match goal with h : parts _ _ _ _ |- _ => apply HP in h; fold q in h; rewrite h; done end.
      + (* link *)
        destruct (find_node g (gl_node l)) as [gn'|] eqn:En.
        2: { split.
             - destruct (dget (ref.1, ref.2, index_key q) idx) as [[| |[|]]|]; done.
             - inversion 1; subst; congruence. }
        apply foldr_and in Hw. rewrite Forall_forall in Hw, IH.
        assert (forall ref', forall d, mapR (denorm g idx gn' ref' (QN sub ord)) sub = Ok d <-> Forall2 (mirror g idx gn' ref') sub d) as Hsub.
        { intros ref' d. rewrite mapR_ok. split; intros Hd; (eapply Forall2_impl_in; [exact Hd|]); intros q1 e1 Hq1 He1;
            apply (IH q1 Hq1 gn' ref' (QN sub ord)); auto. }
        assert (forall ref' d, Forall2 (mirror g idx gn' ref') sub d -> of_pairs d = d) as Hop.
        { intros ref' d Hd. apply of_pairs_NoDup. unfold dkeys. by rewrite (mirror_keys _ _ _ _ Hd). }
        set (obj := fun ref' => match mapR (denorm g idx gn' ref' (QN sub ord)) sub with Ok ps => Ok (TO (of_pairs ps)) | Err e => Err e end).
        assert (forall ref' y, obj ref' = Ok y <-> exists d, y = TO d /\ Forall2 (mirror g idx gn' ref') sub d) as Hobj.
        { intros ref' y. unfold obj. split.
          - destruct (mapR _ sub) as [d|] eqn:Ed; [|done]. apply Hsub in Ed. intros [= <-]. exists d. by rewrite (Hop _ _ Ed).
          - intros (d & -> & Hd). pose proof Hd as Hd'. apply Hsub in Hd. rewrite Hd. by rewrite (Hop _ _ Hd'). }
        assert (forall refs ys, mapR obj refs = Ok ys <-> exists ds, ys = map TO ds /\ Forall2 (fun r d => Forall2 (mirror g idx gn' r) sub d) refs ds) as Hobjs.
        { intros refs ys. rewrite mapR_ok. split.
          - induction 1 as [|r y refs ys Hy _ IHr]; [by exists []|]. apply Hobj in Hy as (d & -> & Hd). destruct IHr as (ds & -> & Hds).
            exists (d :: ds). split; [done|by constructor].
          - intros (ds & -> & Hds). induction Hds as [|r d refs ds Hd _ IHr]; [constructor|]. simpl. constructor; [|done]. apply Hobj. eauto. }
        destruct (dget (ref.1, ref.2, index_key q) idx) as [v|] eqn:Ed.
        2: { split; [done|]. intros Hm. exfalso. inversion Hm; subst; match goal with h : dget _ _ = Some _ |- _ => discriminate (eq_trans (eq_sym Ed) h) end. }
        split.
        * (* -> *)
          destruct (gl_enum l) eqn:Em.
          -- destruct v as [v|m i|[|]]; try done.
             ++ destruct v; try done. intros [= <-]. by eapply mi_absent.
             ++ change (q_node q) with (QN sub ord). fold obj. cbv beta iota zeta.
                destruct (obj (m, i)) as [y|] eqn:Ey; [|unfold obj in Ey; rewrite Ey; done]. 
                intros He. assert (e = (result_key q, y)) as -> by (unfold obj in Ey; rewrite Ey in He; congruence).
                apply Hobj in Ey as (d & -> & Hd). eapply mi_object; [exact Ef|exact En|by rewrite Em|exact Ed|done].
          -- destruct v as [v|m i|[|]]; try done.
             change (q_node q) with (QN sub ord). cbv beta iota zeta.
             destruct (obj (m, i)) as [y|] eqn:Ey; [|unfold obj in Ey; rewrite Ey; done]. 
             intros He. assert (e = (result_key q, y)) as -> by (unfold obj in Ey; rewrite Ey in He; congruence).
             apply Hobj in Ey as (d & -> & Hd). eapply mi_object; [exact Ef|exact En|by rewrite Em|exact Ed|done].
          -- destruct v as [v|m i|[|r refs]]; try done.
             ++ intros [= <-]. change (TL []) with (TL (map TO [])). eapply mi_list; [exact Ef|exact En|done|exact Ed|constructor].
             ++ change (q_node q) with (QN sub ord). cbv beta iota zeta. fold obj.
                destruct (mapR obj (r :: refs)) as [ys|] eqn:Ey; [|done]. intros [= <-].
                apply Hobjs in Ey as (ds & -> & Hds). by eapply mi_list.
        * intros Hm. inversion Hm as [|? ? ? ? ? ? ? l0 gn0 F1 F2 F3 F4|? ? ? ? ? ? ? l0 gn0 m i d F1 F2 F3 F4 F5|? ? ? ? ? ? ? l0 gn0 refs ds F1 F2 F3 F4 F5|]; subst; try congruence.
          -- rewrite Ef in F1. injection F1 as <-. rewrite F3. pose proof (eq_trans (eq_sym Ed) F4) as Hv. injection Hv as ->. done.
          -- rewrite Ef in F1. injection F1 as <-. rewrite En in F2. injection F2 as <-.
             pose proof (eq_trans (eq_sym Ed) F4) as Hv. injection Hv as ->. cbv beta iota zeta. change (q_node q) with (QN sub ord).
             assert (obj (m, i) = Ok (TO d)) as Ho by (apply Hobj; eauto). unfold obj in Ho.
             destruct (gl_enum l); [by rewrite Ho|by rewrite Ho|done].
          -- rewrite Ef in F1. injection F1 as <-. rewrite En in F2. injection F2 as <-.
             pose proof (eq_trans (eq_sym Ed) F4) as Hv. injection Hv as ->. rewrite F3. cbv beta iota zeta. change (q_node q) with (QN sub ord).
             destruct refs as [|r refs]; [by inversion F5|]. fold obj.
             assert (mapR obj (r :: refs) = Ok (map TO ds)) as -> by (apply Hobjs; eauto). done.
  Qed.

  (** C17: the denormalized result mirrors the query. *)
  Theorem C17_result_mirrors_query_partial (q : qnode) t :
    NoDup (map result_key (qfields q)) -> (forall q0, q0 ∈ qfields q -> well_keyed g (g_root g) q0) ->
    denormalize g idx q = Ok t <-> exists d, t = TO d /\ Forall2 (mirror g idx (g_root g) ROOT) (qfields q) d.
  Proof.
    intros Hn Hw. unfold denormalize, denorm_node.
    assert (forall d, mapR (denorm g idx (g_root g) ROOT q) (qfields q) = Ok d <-> Forall2 (mirror g idx (g_root g) ROOT) (qfields q) d) as Hm.
    { intros d. rewrite mapR_ok. split; intros Hd; (eapply Forall2_impl_in; [exact Hd|]); intros q1 e1 Hq1 He1; apply (denorm_mirror q1 (g_root g) ROOT q); auto. }
    assert (forall d, Forall2 (mirror g idx (g_root g) ROOT) (qfields q) d -> of_pairs d = d) as Hop.
    { intros d Hd. apply of_pairs_NoDup. unfold dkeys. by rewrite (mirror_keys _ _ _ _ Hd). }
    split.
    - destruct (mapR _ _) as [d|]; [|done]. pose proof (proj1 (Hm d) eq_refl) as Ed. intros [= <-]. exists d. by rewrite (Hop _ Ed).
    - intros (d & -> & Hd). pose proof Hd as Hd'. apply Hm in Hd. rewrite Hd. by rewrite (Hop _ Hd').
  Qed.
  (** ... in particular its keys are the result keys of the query, in query order. *)
  Theorem C17_keys_partial (q : qnode) t :
    NoDup (map result_key (qfields q)) -> (forall q0, q0 ∈ qfields q -> well_keyed g (g_root g) q0) ->
    denormalize g idx q = Ok t -> exists d, t = TO d /\ map fst d = map result_key (qfields q).
  Proof. intros Hn Hw Ht. apply C17_result_mirrors_query_partial in Ht as (d & -> & Hd); [|done..]. exists d. split; [done|]. by eapply mirror_keys. Qed.

  (** ** Types of the graph *)
  Lemma dget_reverse_NoDup {K V} `{EqDecision K} (d : list (K * V)) k : NoDup (dkeys d) -> dget k (reverse d) = dget k d.
  Proof.
    intros Hn. rewrite <-(of_pairs_NoDup d Hn) at 2. unfold of_pairs. rewrite dget_dupdate. by destruct (dget k (reverse d)).
  Qed.
  Lemma dget_of_pairs {K V} `{EqDecision K} (d : list (K * V)) k : dget k (of_pairs d) = dget k (reverse d).
  Proof. unfold of_pairs. rewrite dget_dupdate. by destruct (dget k (reverse d)). Qed.
  Lemma dget_map {K V W} `{EqDecision K} (f : V -> W) (d : list (K * V)) k :
    dget k (map (fun p => (p.1, f p.2)) d) = match dget k d with Some v => Some (f v) | None => None end.
  Proof. induction d as [|[k' v] d IH]; [done|]. simpl. by destruct (decide (k = k')). Qed.

  Lemma reverse_map {A B} (f : A -> B) (l : list A) : reverse (map f l) = map f (reverse l).
  Proof. symmetry. apply (fmap_reverse f l). Qed.

  Definition node_type (gn : gnode) : ty := TRec (rec_of_items (gn_fields gn)).
  Lemma rec_of_items_get (l : list gitem) n :
    dget n (rec_of_items l) = match dget n (of_pairs (map (fun x => (gi_name x, x)) l)) with Some x => Some (gi_type x) | None => None end.
  Proof.
    unfold rec_of_items. rewrite !dget_of_pairs, <-dget_map. f_equal. rewrite <-!reverse_map. f_equal. by rewrite map_map.
  Qed.
  Lemma node_type_get gn n : match node_type gn with TRec fs => dget n fs | _ => None end =
    match find_field gn n with Some x => Some (gi_type x) | None => None end.
  Proof. apply rec_of_items_get. Qed.
  Lemma reverse_app_ {A} (a b : list A) : reverse (a ++ b) = reverse b ++ reverse a.
  Proof. apply reverse_app. Qed.
  Lemma concat_rec_get (ls : list (list gitem)) n :
    dget n (reverse (concat (map rec_of_items ls))) = dget n (rec_of_items (concat ls)).
  Proof.
    rewrite rec_of_items_get, dget_of_pairs. induction ls as [|l ls IH] using rev_ind; [done|].
    rewrite !concat_app, map_app, concat_app. simpl. rewrite !app_nil_r, map_app, !reverse_app, !dget_app, IH.
    rewrite dget_reverse_NoDup by apply NoDup_of_pairs. rewrite rec_of_items_get, dget_of_pairs.
    by destruct (dget n (reverse (map _ l))).
  Qed.
  Definition named_nodes (items : list gnode) : list (str * gnode) :=
    omap (fun n => match gn_name n with Some x => Some (x, n) | None => None end) items.
  Lemma types_fold items d :
    fold_left (fun d n => match gn_name n with Some x => dset x (TRec (rec_of_items (gn_fields n))) d | None => d end) items d =
    dupdate d (map (fun p => (p.1, node_type p.2)) (named_nodes items)).
  Proof.
    unfold dupdate. revert d. induction items as [|nd items IH]; intros d; [done|]. simpl.
    destruct (gn_name nd) as [x|] eqn:En; simpl; apply IH.
  Qed.
  Lemma g_types_node n gn : find_node g n = Some gn -> n <> s "__root__" -> dget n (g_types g) = Some (node_type gn).
  Proof.
    intros Hf Hn. unfold g_types. rewrite dget_dset, decide_False by done.
    rewrite types_fold, dget_dupdate, reverse_map, dget_map.
    unfold find_node, nodes_map in Hf. rewrite dget_of_pairs in Hf. unfold named_nodes. by rewrite Hf.
  Qed.
  Lemma g_types_root : exists fs, dget (s "__root__") (g_types g) = Some (TRec fs) /\
    forall n, dget n fs = match find_field (g_root g) n with Some x => Some (gi_type x) | None => None end.
  Proof.
    eexists. unfold g_types. rewrite dget_dset, decide_True by done. split; [done|]. intros n.
    rewrite dget_of_pairs. unfold find_field, fields_map. rewrite <-rec_of_items_get. unfold g_root. simpl.
    rewrite <-concat_rec_get. f_equal. f_equal.
    induction (g_items g) as [|nd items IH]; [done|]. simpl. destruct (gn_name nd); simpl; [done|]. by rewrite IH.
  Qed.

  (** ** C19 *)
  (** What [denormalize] gives is what [Denormalize] gives. *)
  Lemma visit_mirror q : forall gn t ref pn e,
    find_node g (s "__root__") = None ->
    (exists fs, t = TRec fs /\ forall n, dget n fs = match find_field gn n with Some x => Some (gi_type x) | None => None end) ->
    only_links_nested g gn q -> well_keyed g gn q -> NoDup (map result_key (qfields pn)) -> q ∈ qfields pn ->
    mirror g idx gn ref q e -> visit_item (g_types g) idx None t (DP ref pn) q = Ok e.
  Proof.
    induction q as [n o a|n sub ord o a IH] using qitem_ind'; intros gn t ref pn e Hroot (fs & -> & Hfs) Ho Hw Hn Hin Hm.
    - cbn [visit_item]. unfold visit_field_. cbn [dat_get]. destruct (C18_requested_key ref pn _ Hn Hin) as [-> _].
      inversion Hm as [? ? ? ? ? ? v Hf Hd| | | |]; subst. rewrite Hd. done.
    - destruct (C18_requested_key ref pn _ Hn Hin) as [Hp _]. set (q := QL n sub ord o a) in *.
      simpl (q_is_link q) in Hp. cbv iota in Hp. unfold q at 1. cbn [visit_item rec_fields q_name]. fold q. rewrite Hfs.
      unfold q in Ho. cbn [only_links_nested] in Ho. cbn [well_keyed] in Hw. destruct Hw as [Hns Hw].
      destruct (find_field gn n) as [[f|l]|] eqn:Ef; [done| |done]. cbn [gi_type next_name].
      destruct (find_node g (gl_node l)) as [gn'|] eqn:En.
      2: { inversion Hm; subst; congruence. }
      apply foldr_and in Hw, Ho. rewrite Forall_forall in IH, Hw, Ho.
      assert (gl_node l <> s "__root__") as Hnr by congruence.
      pose proof (g_types_node _ _ En Hnr) as Ht.
      assert (forall ref' d, Forall2 (mirror g idx gn' ref') sub d ->
        match mapR (visit_item (g_types g) idx None (node_type gn') (DP ref' (QN sub ord))) sub with Ok ps => Ok (TO (of_pairs ps)) | Err e => Err e end = Ok (TO d)) as Hobj.
      { intros ref' d Hd. assert (mapR (visit_item (g_types g) idx None (node_type gn') (DP ref' (QN sub ord))) sub = Ok d) as ->.
        { apply mapR_ok. eapply Forall2_impl_in; [exact Hd|]. intros q1 e1 Hq1 He1. apply (IH q1 Hq1 gn'); auto.
          exists (rec_of_items (gn_fields gn')). split; [done|]. intros n'. exact (node_type_get gn' n'). }
        rewrite of_pairs_NoDup; [done|]. unfold dkeys. by rewrite (mirror_keys _ _ _ _ Hd). }
      inversion Hm as [|? ? ? ? ? ? ? l0 gn0 F1 F2 F3 F4|? ? ? ? ? ? ? l0 gn0 m i d F1 F2 F3 F4 F5|? ? ? ? ? ? ? l0 gn0 refs ds F1 F2 F3 F4 F5|]; subst; try congruence.
      + rewrite Ef in F1. injection F1 as <-. unfold gl_type. rewrite F3. cbn [dat_get]. rewrite Hp. fold q in F4. by rewrite F4.
      + rewrite Ef in F1. injection F1 as <-. rewrite En in F2. injection F2 as <-. fold q in F4. unfold gl_type.
        destruct (gl_enum l); [| |done]; cbn [dat_get get_type from_opt]; rewrite Ht, Hp, F4; cbn [from_opt dat_of]; change (q_node q) with (QN sub ord); by rewrite (Hobj _ _ F5).
      + rewrite Ef in F1. injection F1 as <-. rewrite En in F2. injection F2 as <-. fold q in F4. unfold gl_type. rewrite F3.
        cbn [dat_get get_type from_opt]. rewrite Ht, Hp, F4. cbn [from_opt].
        assert (forall refs ds, Forall2 (fun r d => Forall2 (mirror g idx gn' r) sub d) refs ds ->
          mapR (fun d' => match mapR (visit_item (g_types g) idx None (node_type gn') d') sub with Ok ps => Ok (TO (of_pairs ps)) | Err e => Err e end)
             (map (fun r => DP r (QN sub ord)) refs) = Ok (map TO ds)) as Hmap.
        { clear -Hobj. induction 1 as [|r d refs ds Hd _ IH]; [done|]. simpl. rewrite (Hobj _ _ Hd), IH. done. }
        destruct refs as [|r refs]; [inversion F5; subst; done|]. cbn [dat_iter]. change (q_node q) with (QN sub ord). by rewrite (Hmap _ _ F5).
  Qed.

  Theorem C19_denormalizers_agree_partial (q : qnode) t :
    find_node g (s "__root__") = None ->
    NoDup (map result_key (qfields q)) -> (forall q0, q0 ∈ qfields q -> well_keyed g (g_root g) q0 /\ only_links_nested g (g_root g) q0) ->
    denormalize g idx q = Ok t -> process_with None g idx q q = Ok t.
  Proof.
    intros Hroot Hn Hw Ht. apply C17_result_mirrors_query_partial in Ht as (d & -> & Hd); [|done|intros; by apply Hw].
    unfold process_with. destruct g_types_root as (fs & -> & Hfs).
    assert (mapR (visit_item (g_types g) idx None (TRec fs) (DP ROOT q)) (qfields q) = Ok d) as ->.
    { apply mapR_ok. eapply Forall2_impl_in; [exact Hd|]. intros q1 e1 Hq1 He1.
      apply (visit_mirror q1 (g_root g)); auto; [by eexists|by apply Hw|by apply Hw]. }
    rewrite of_pairs_NoDup; [done|]. unfold dkeys. by rewrite (mirror_keys _ _ _ _ Hd).
  Qed.

  (** ** C20 *)
  Lemma strip_key q : result_key (strip_item q) = result_key q.
  Proof. by destruct q. Qed.
  Lemma strip_NoDup sub : NoDup (map result_key sub) -> NoDup (map result_key (strip_items sub)).
  Proof.
    assert (forall x, x ∈ map result_key (strip_items sub) -> x ∈ map result_key sub) as Hin.
    { induction sub as [|q sub IH]; [done|]. intros x. simpl. destruct (decide _); simpl; rewrite elem_of_cons; [auto|].
      rewrite elem_of_cons, strip_key. naive_solver. }
    induction sub as [|q sub IH]; intros Hn; [done|]. simpl in Hn. inversion Hn as [|? ? H1 H2]; subst.
    simpl. destruct (decide _).
    - apply IH; [|done]. clear -sub. induction sub as [|q sub IH]; [done|]. intros x. simpl. destruct (decide _); simpl; rewrite elem_of_cons; [auto|].
      rewrite elem_of_cons, strip_key. naive_solver.
    - assert (forall x, x ∈ map result_key (strip_items sub) -> x ∈ map result_key sub) as Hin'.
      { clear -sub. induction sub as [|q sub IH]; [done|]. intros x. simpl. destruct (decide _); simpl; rewrite elem_of_cons; [auto|].
        rewrite elem_of_cons, strip_key. naive_solver. }
      simpl. rewrite strip_key. constructor; [|by apply IH]. intros Hx. by apply H1, Hin'.
  Qed.

  Lemma visit_named q : forall tn gn t ref pn e0,
    find_node g (s "__root__") = None ->
    (exists fs, t = TRec fs /\ forall n, dget n fs = match find_field gn n with Some x => Some (gi_type x) | None => None end) ->
    only_links_nested g gn q -> well_keyed g gn q -> typename_is_field q -> NoDup (map result_key (qfields pn)) -> q_name q <> TYPENAME -> strip_item q ∈ qfields pn ->
    mirror g idx gn ref (strip_item q) e0 ->
    exists e, visit_item (g_types g) idx (Some tn) t (DP ref pn) q = Ok e /\ named g tn gn q e /\ e.1 = e0.1 /\ untype q e.2 = e0.2.
  Proof.
    induction q as [n o a|n sub ord o a IH] using qitem_ind'; intros tn gn t ref pn e0 Hroot (fs & -> & Hfs) Ho Hw Htf Hn Hty Hin Hm.
    - cbn [visit_item]. unfold visit_field_. rewrite decide_False by done. cbn [dat_get]. cbn [strip_item] in *.
      destruct (C18_requested_key ref pn _ Hn Hin) as [-> _].
      inversion Hm as [? ? ? ? ? ? v Hf Hd| | | |]; subst. rewrite Hd. eexists. split; [done|]. split; [by constructor|]. done.
    - destruct (C18_requested_key ref pn _ Hn Hin) as [Hp _]. set (q := QL n sub ord o a) in *.
      assert (strip_item q = QL n (strip_items sub) ord o a) as Hsq by done. rewrite Hsq in Hm, Hp, Hin.
      change (result_key (QL n (strip_items sub) ord o a)) with (result_key q) in Hp.
      cbn [q_is_link] in Hp. cbv iota in Hp. unfold q at 1. cbn [visit_item rec_fields q_name]. fold q. rewrite Hfs.
      unfold q in Ho. cbn [only_links_nested] in Ho. cbn [well_keyed] in Hw. destruct Hw as [Hns Hw].
      destruct (find_field gn n) as [[f|l]|] eqn:Ef; [done| |done]. cbn [gi_type next_name].
      destruct (find_node g (gl_node l)) as [gn'|] eqn:En.
      2: { inversion Hm; subst; congruence. }
      unfold q in Htf. cbn [typename_is_field] in Htf. destruct Htf as [_ Htf].
      apply foldr_and in Hw, Ho, Htf. rewrite Forall_forall in IH, Hw, Ho, Htf.
      assert (gl_node l <> s "__root__") as Hnr by congruence.
      pose proof (g_types_node _ _ En Hnr) as Ht.
      assert (link_type_name (gl_type l) = Ok (gl_node l)) as Hln by (unfold gl_type; by destruct (gl_enum l)).
      rewrite Hln.
      assert (forall ref' d0, Forall2 (mirror g idx gn' ref') (strip_items sub) d0 -> exists d,
        match mapR (visit_item (g_types g) idx (Some (gl_node l)) (node_type gn') (DP ref' (QN (strip_items sub) ord))) sub with Ok ps => Ok (TO (of_pairs ps)) | Err e => Err e end = Ok (TO d) /\
        Forall2 (named g (gl_node l) gn') sub d /\ untype_entries untype sub d = d0) as Hobj.
      { intros ref' d0 Hd.
        assert (exists d, mapR (visit_item (g_types g) idx (Some (gl_node l)) (node_type gn') (DP ref' (QN (strip_items sub) ord))) sub = Ok d /\
          Forall2 (named g (gl_node l) gn') sub d /\ untype_entries untype sub d = d0 /\ map fst d = map result_key sub) as (d & Hd1 & Hd2 & Hd3 & Hd4).
        { assert (forall l1, (forall q1, q1 ∈ l1 -> q1 ∈ sub) -> forall d0, Forall2 (mirror g idx gn' ref') (strip_items l1) d0 ->
            exists d, mapR (visit_item (g_types g) idx (Some (gl_node l)) (node_type gn') (DP ref' (QN (strip_items sub) ord))) l1 = Ok d /\
            Forall2 (named g (gl_node l) gn') l1 d /\ untype_entries untype l1 d = d0 /\ map fst d = map result_key l1) as Hgen; [|by apply Hgen].
          clear d0 Hd. induction l1 as [|q1 l1 IHl]; intros Hsub d0 Hd.
          - simpl in Hd. inversion Hd; subst. exists []. done.
          - assert (q1 ∈ sub) as Hq1 by (apply Hsub; left). simpl in Hd. destruct (decide (q_name q1 = TYPENAME)) as [Hq|Hq].
            + destruct (IHl ltac:(intros; apply Hsub; by right) d0 Hd) as (d & D1 & D2 & D3 & D4).
              destruct q1 as [n1 o1 a1|n1 s1 r1 o1 a1]; [|by destruct (Htf _ Hq1)]. simpl in Hq. subst n1.
              cbn [mapR visit_item]. unfold visit_field_. rewrite decide_True by done. rewrite D1. eexists. split; [done|].
              split; [constructor; [constructor|done]|]. split; [cbn [untype_entries q_name]; by rewrite decide_True|]. simpl. by rewrite D4.
            + simpl in Hd. inversion Hd as [|? e1 ? d1 He1 Hd1]; subst.
              destruct (IHl ltac:(intros; apply Hsub; by right) d1 Hd1) as (d & D1 & D2 & D3 & D4).
              destruct (IH q1 Hq1 (gl_node l) gn' (node_type gn') ref' (QN (strip_items sub) ord) e1) as (e & V1 & V2 & V3 & V4); auto.
              { exists (rec_of_items (gn_fields gn')). split; [done|]. intros n'. exact (node_type_get gn' n'). }
              { by apply strip_NoDup. }
              { simpl. apply elem_of_list_In, in_flat_map. exists q1. split; [by apply elem_of_list_In|]. rewrite decide_False by done. by left. }
              cbn [mapR]. rewrite V1, D1. eexists. split; [done|]. split; [by constructor|].
              destruct e as [k t1], e1 as [k1 t2]. simpl in *. subst k1 t2. rewrite decide_False by done. split; [by rewrite D3|].
              rewrite D4. f_equal. rewrite <-strip_key. exact (mirror_key _ _ _ _ He1). }
        exists d. rewrite Hd1. split; [|done]. rewrite of_pairs_NoDup; [done|]. unfold dkeys. by rewrite Hd4. }
      inversion Hm as [|? ? ? ? ? ? ? l0 gn0 F1 F2 F3 F4|? ? ? ? ? ? ? l0 gn0 m i d F1 F2 F3 F4 F5|? ? ? ? ? ? ? l0 gn0 refs ds F1 F2 F3 F4 F5|]; subst; try congruence.
      + rewrite Ef in F1. injection F1 as <-. unfold gl_type. rewrite F3. cbn [dat_get]. rewrite Hp, F4.
        eexists. split; [done|]. split; [constructor|done].
      + rewrite Ef in F1. injection F1 as <-. rewrite En in F2. injection F2 as <-. destruct (Hobj _ _ F5) as (d' & O1 & O2 & O3). unfold gl_type.
        exists (result_key q, TO d'). split; [|split; [by eapply nd_object|split; [done|simpl; by rewrite O3]]].
        destruct (gl_enum l); [| |done]; cbn [dat_get get_type from_opt]; rewrite Ht, Hp, F4; cbn [from_opt dat_of]; cbn [q_node]; by rewrite O1.
      + rewrite Ef in F1. injection F1 as <-. rewrite En in F2. injection F2 as <-. unfold gl_type. rewrite F3.
        assert (exists ds', mapR (fun d' => match mapR (visit_item (g_types g) idx (Some (gl_node l)) (node_type gn') d') sub with Ok ps => Ok (TO (of_pairs ps)) | Err e => Err e end)
             (map (fun r => DP r (QN (strip_items sub) ord)) refs) = Ok (map TO ds') /\
             Forall (fun d => Forall2 (named g (gl_node l) gn') sub d) ds' /\ map (untype_entries untype sub) ds' = ds) as (ds' & M1 & M2 & M3).
        { clear -Hobj F5. induction F5 as [|r d refs ds Hd _ IHr]; [by exists []|]. destruct IHr as (ds' & I1 & I2 & I3).
          destruct (Hobj _ _ Hd) as (d' & O1 & O2 & O3). exists (d' :: ds'). simpl. rewrite O1, I1. split; [done|]. split; [by constructor|]. by rewrite O3, I3. }
        exists (result_key q, TL (map TO ds')). split; [|split; [by eapply nd_list|split; [done|]]].
        * cbn [dat_get get_type from_opt]. rewrite Ht, Hp, F4. cbn [from_opt].
          destruct refs as [|r refs]; [inversion F5; subst; destruct ds'; done|]. cbn [dat_iter]. cbn [q_node]. by rewrite M1.
        * simpl. f_equal. rewrite map_map, <-M3, map_map. done.
  Qed.

  Lemma strip_well_keyed q : forall gn, only_links_nested g gn q -> well_keyed g gn q -> well_keyed g gn (strip_item q).
  Proof.
    induction q as [n o a|n sub ord o a IH] using qitem_ind'; intros gn Ho Hw; [done|].
    change (strip_item (QL n sub ord o a)) with (QL n (strip_items sub) ord o a).
    cbn [only_links_nested well_keyed] in *. destruct Hw as [Hn Hw]. split; [by apply strip_NoDup|].
    destruct (find_field gn n) as [[f|l]|]; [done| |done].
    destruct (find_node g (gl_node l)) as [gn'|]; [|done].
    rewrite foldr_and in *. rewrite Forall_forall in IH, Hw, Ho. apply Forall_forall. intros q1 Hq1.
    apply elem_of_list_In, in_flat_map in Hq1 as (q2 & Hq2%elem_of_list_In & Hq1).
    destruct (decide _); [done|]. destruct Hq1 as [<-|[]]. apply (IH q2 Hq2); auto.
  Qed.

  (** C20: the GraphQL result of the query is the result of the query without [__typename],
      with one more entry for each [__typename] asked for: the name of the type of its object.
      The executed query is the one without [__typename]. *)
  Theorem C20_typename (q : qnode) (rn : str) t0 :
    find_node g (s "__root__") = None ->
    NoDup (map result_key (qfields q)) ->
    (forall q0, q0 ∈ qfields q -> well_keyed g (g_root g) q0 /\ only_links_nested g (g_root g) q0 /\ typename_is_field q0) ->
    denormalize g idx (strip_query q) = Ok t0 ->
    exists d, process_with (Some rn) g idx (strip_query q) q = Ok (TO d) /\
      map fst d = map result_key (qfields q) /\
      Forall2 (named g rn (g_root g)) (qfields q) d /\
      t0 = TO (untype_entries untype (qfields q) d).
  Proof.
    intros Hroot Hn Hq Ht.
    apply C17_result_mirrors_query_partial in Ht as (d0 & -> & Hd0).
    2: by apply strip_NoDup.
    2: { intros q0 Hq0. apply elem_of_list_In, in_flat_map in Hq0 as (q2 & Hq2%elem_of_list_In & Hq0).
         destruct (decide _); [done|]. destruct Hq0 as [<-|[]]. destruct (Hq q2 Hq2) as (? & ? & ?). by apply strip_well_keyed. }
    unfold process_with. destruct g_types_root as (fs & -> & Hfs).
    assert (forall l1, (forall q1, q1 ∈ l1 -> q1 ∈ qfields q) -> forall d0, Forall2 (mirror g idx (g_root g) ROOT) (strip_items l1) d0 ->
      exists d, mapR (visit_item (g_types g) idx (Some rn) (TRec fs) (DP ROOT (strip_query q))) l1 = Ok d /\
      Forall2 (named g rn (g_root g)) l1 d /\ untype_entries untype l1 d = d0 /\ map fst d = map result_key l1) as Hgen.
    { clear d0 Hd0. induction l1 as [|q1 l1 IHl]; intros Hsub d0 Hd.
      - simpl in Hd. inversion Hd; subst. exists []. done.
      - assert (q1 ∈ qfields q) as Hq1 by (apply Hsub; left). simpl in Hd. destruct (decide (q_name q1 = TYPENAME)) as [He|He].
        + destruct (IHl ltac:(intros; apply Hsub; by right) d0 Hd) as (d & D1 & D2 & D3 & D4).
          destruct q1 as [n1 o1 a1|n1 s1 r1 o1 a1]; [|by destruct (Hq _ Hq1) as (_ & _ & ? & _)]. simpl in He. subst n1.
          cbn [mapR visit_item]. unfold visit_field_. rewrite decide_True by done. rewrite D1. eexists. split; [done|].
          split; [constructor; [constructor|done]|]. split; [cbn [untype_entries q_name]; by rewrite decide_True|]. simpl. by rewrite D4.
        + simpl in Hd. inversion Hd as [|? e1 ? d1 He1 Hd1]; subst.
          destruct (IHl ltac:(intros; apply Hsub; by right) d1 Hd1) as (d & D1 & D2 & D3 & D4).
          destruct (Hq q1 Hq1) as (W1 & W2 & W3).
          destruct (visit_named q1 rn (g_root g) (TRec fs) ROOT (strip_query q) e1) as (e & V1 & V2 & V3 & V4); auto.
          { by exists fs. }
          { by apply strip_NoDup. }
          { simpl. apply elem_of_list_In, in_flat_map. exists q1. split; [by apply elem_of_list_In|]. rewrite decide_False by done. by left. }
          cbn [mapR]. rewrite V1, D1. eexists. split; [done|]. split; [by constructor|].
          destruct e as [k t1], e1 as [k1 t2]. simpl in *. subst k1 t2. rewrite decide_False by done. split; [by rewrite D3|].
          rewrite D4. f_equal. rewrite <-strip_key. exact (mirror_key _ _ _ _ He1). }
    destruct (Hgen (qfields q) ltac:(done) d0 Hd0) as (d & -> & G2 & G3 & G4).
    exists d. rewrite of_pairs_NoDup by (unfold dkeys; by rewrite G4). by rewrite G3.
  Qed.
End thms.

(** ** Where the properties fail *)
Section refuted.
  Context `{Hasher}.
  (** [Root([Field('cfg', Record[{'x': Integer}], f)])] *)
  Definition rec_graph : graph :=
    Graph [GNode None [GF (GField (s "cfg") (Some (TRec [(s "x", TInt)])) (FPlain 1) [])]] [].
  Definition rec_query (a : option str) : qnode := QN [QL (s "cfg") [QF (s "x") None a] false None None] false.
  Definition rec_index : index := [(ROOT.1, ROOT.2, s "cfg", IVal (VDict [(VStr (s "x"), VInt 1)]))].

  (** C17: [{:cfg [alias: x]}] is answered with the key [x]: the denormalized object does not
      mirror the query although all its result keys are distinct. *)
  Theorem C17_alias_in_record_refuted :
    exists g idx q t, NoDup (map result_key (qfields q)) /\
      (forall f, f ∈ qfields q -> NoDup (map result_key (qfields (q_node f)))) /\
      denormalize g idx q = Ok t /\
      ~ exists d, t = TO d /\ Forall2 (mirror g idx (g_root g) ROOT) (qfields q) d.
  Proof.
    exists rec_graph, rec_index, (rec_query (Some (s "alias"))), (TO [(s "cfg", TO [(s "x", TP (PRaw (IVal (VInt 1))))])]).
    split; [apply NoDup_singleton|]. split.
    { intros f [->|Hf%not_elem_of_nil]%elem_of_cons; [|done]. apply NoDup_singleton. }
    split; [vm_compute; reflexivity|]. intros (d & [= <-] & Hd). inversion Hd as [|? ? ? ? Hm _]; subst.
    inversion Hm; subst; try (match goal with h : find_field _ _ = Some (GL _) |- _ => vm_compute in h; discriminate h end).
    match goal with h : parts _ _ _ _ |- _ => rename h into Hp end.
    match goal with h : find_field _ _ = Some (GF ?f), h2 : get_type _ _ = Ok ?t |- _ => vm_compute in h; injection h as <-; vm_compute in h2; injection h2 as <- end.
    inversion Hp as [| | | |? ? ? ? ? ? ? ? Hf2]; subst. inversion Hf2 as [|? ? ? ? [Hk _] _]; subst. by vm_compute in Hk.
  Qed.

  (** [Graph([Root([Field('a', TypeRef['A'], f)])], data_types={'A': Record[{'b': TypeRef['B']}],
      'B': Record[{'c': Integer}]})] *)
  Definition nest_graph : graph :=
    Graph [GNode None [GF (GField (s "a") (Some (TRef (s "A"))) (FPlain 1) [])]]
          [(s "A", TRec [(s "b", TRef (s "B"))]); (s "B", TRec [(s "c", TInt)])].
  Definition nest_query : qnode :=
    QN [QL (s "a") [QL (s "b") [QF (s "c") None None] false None None] false None None] false.
  Definition nest_index : index :=
    [(ROOT.1, ROOT.2, s "a", IVal (VDict [(VStr (s "b"), VDict [(VStr (s "c"), VInt 1)])]))].
  (** C17: a record inside of a record can't be selected if its type is given by name,
      although the value has the shape of its type and [Denormalize] does give the result. *)
  Theorem C17_nested_data_type_refuted :
    denormalize nest_graph nest_index nest_query = Err AssertionError /\
    process_with None nest_graph nest_index nest_query nest_query =
      Ok (TO [(s "a", TO [(s "b", TO [(s "c", TP (PRaw (IVal (VInt 1))))])])]).
  Proof. split; vm_compute; reflexivity. Qed.

  (** C19: the two denormalizers do not agree on fields which hold records: [Denormalize]
      fails where [denormalize] gives the result. *)
  Theorem C19_record_fields_refuted :
    denormalize rec_graph rec_index (rec_query None) =
      Ok (TO [(s "cfg", TO [(s "x", TP (PRaw (IVal (VInt 1))))])]) /\
    process_with None rec_graph rec_index (rec_query None) (rec_query None) = Err AssertionError.
  Proof. split; vm_compute; reflexivity. Qed.
End refuted.

(** ** The hypotheses can be met *)
#[local] Existing Instance ex_hasher.
Ltac in_list H := repeat (apply elem_of_cons in H as [->|H]; [|]); [..|by apply not_elem_of_nil in H].
Ltac nodup := apply (bool_decide_unpack _); vm_compute; exact I.

Lemma ex_well_keyed q0 : q0 ∈ qfields ex_query' ->
  well_keyed ex_graph (g_root ex_graph) q0 /\ only_links_nested ex_graph (g_root ex_graph) q0.
Proof.
  change (qfields ex_query') with (map (fun x => x) (qfields ex_query')). intros Hq. vm_compute in Hq.
  in_list Hq; (split; [|by vm_compute]); simpl; repeat match goal with |- _ /\ _ => split end; try exact I; nodup.
Qed.
Lemma ex_no_root : find_node ex_graph (s "__root__") = None. Proof. by vm_compute. Qed.

(** the result of [ExEngine] mirrors its query; both denormalizers give it *)
Example C17_met : exists d, ex_result = TO d /\ Forall2 (mirror ex_graph (ex_index sched2) (g_root ex_graph) ROOT) (qfields ex_query') d.
Proof.
  apply (C17_result_mirrors_query_partial ex_graph (ex_index sched2) ex_query' ex_result); [nodup|intros; by apply ex_well_keyed|].
  apply ex_denormalized. right. left.
Qed.
Example C17_record_met : exists d, TO [(s "cfg", TO [(s "x", TP (PRaw (IVal (VInt 1))))])] = TO d /\
  Forall2 (mirror rec_graph rec_index (g_root rec_graph) ROOT) (qfields (rec_query None)) d.
Proof.
  apply C17_result_mirrors_query_partial; [nodup| |vm_compute; reflexivity].
  intros q0 Hq. vm_compute in Hq. in_list Hq. simpl. split; [nodup|done].
Qed.
Example C19_met : process_with None ex_graph (ex_index sched2) ex_query' ex_query' = Ok ex_result.
Proof.
  apply C19_denormalizers_agree_partial; [exact ex_no_root|nodup|intros; by apply ex_well_keyed|]. apply ex_denormalized. right. left.
Qed.
Example C18_met : proxy_get (ex_index sched2) (s "User", VInt 7) (QN [QL (s "boss") [QF (s "name") None None] false None (Some (s "b"))] false) (s "b")
  = Ok (PProxy (s "User", VInt 1) (QN [QF (s "name") None None] false)) /\
  proxy_get (ex_index sched2) (s "User", VInt 7) (QN [QL (s "boss") [QF (s "name") None None] false None (Some (s "b"))] false) (s "boss") = Err KeyError.
Proof.
  split.
  - set (f := QL (s "boss") [QF (s "name") None None] false None (Some (s "b"))).
    destruct (C18_requested_key (ex_index sched2) (s "User", VInt 7) (QN [f] false) f) as [Hg _]; [nodup|left|].
    etransitivity; [exact Hg|]. vm_compute. reflexivity.
  - apply C18_other_key. nodup.
Qed.

(** [__typename] at three places of the query *)
Definition ex_typed : qnode :=
  QN [QF (s "__typename") None None;
      QF (s "version") None None;
      QL (s "me") [QF (s "name") None None; QF (s "__typename") None (Some (s "t"));
                   QL (s "boss") [QF (s "__typename") None None; QF (s "name") None None] false None None] true None None;
      QL (s "nobody") [QF (s "__typename") None None; QF (s "name") None None] false None None] false.
Example C20_met : exists d, process_with (Some (s "Query")) ex_graph (ex_index sched2) (strip_query ex_typed) ex_typed = Ok (TO d) /\
  Forall2 (named ex_graph (s "Query") (g_root ex_graph)) (qfields ex_typed) d.
Proof.
  destruct (denormalize ex_graph (ex_index sched2) (strip_query ex_typed)) as [t0|] eqn:Et.
  2: { assert (match denormalize ex_graph (ex_index sched2) (strip_query ex_typed) with Ok _ => true | _ => false end = true) as Hb by (vm_compute; reflexivity). by rewrite Et in Hb. }
  destruct (C20_typename ex_graph (ex_index sched2) ex_typed (s "Query") t0) as (d & Hd & _ & Hn & _); [exact ex_no_root|nodup| |exact Et|exists d; split; [exact Hd|exact Hn]].
  clear Et t0. intros q0 Hq. vm_compute in Hq.
  in_list Hq.
  all: split.
  all: cycle 1.
  all: try split.
  all: try (vm_compute; repeat match goal with |- _ /\ _ => split end; try exact I; intros E; discriminate E).
  all: simpl.
  all: repeat match goal with |- _ /\ _ => split end.
  all: try exact I.
  all: nodup.
Qed.
Example C20_value : process_with (Some (s "Query")) ex_graph (ex_index sched2) (strip_query ex_typed) ex_typed =
  Ok (TO [(s "__typename", TP (PRaw (IVal (VStr (s "Query"))))); (s "version", TP (PRaw (IVal (VStr (s "1.0")))));
          (s "me", TO [(s "name", TP (PRaw (IVal (VTuple [VStr (s "user"); VInt 7])))); (s "t", TP (PRaw (IVal (VStr (s "User")))));
                       (s "boss", TO [(s "__typename", TP (PRaw (IVal (VStr (s "User"))))); (s "name", TP (PRaw (IVal (VTuple [VStr (s "user"); VInt 1]))))])]);
          (s "nobody", TP (PRaw (IVal VNone)))]).
Proof. vm_compute. reflexivity. Qed.

Print Assumptions C17_result_mirrors_query_partial.
Print Assumptions C17_keys_partial.
Print Assumptions C17_alias_in_record_refuted.
Print Assumptions C17_nested_data_type_refuted.
Print Assumptions C18_requested_key.
Print Assumptions C18_other_key.
Print Assumptions C19_denormalizers_agree_partial.
Print Assumptions C19_record_fields_refuted.
Print Assumptions C20_typename.
