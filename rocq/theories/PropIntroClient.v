(** A client which asks for the whole schema (C57): hiku/introspection/graphql.py, hiku/engine.py. *)
From stdpp Require Import relations.
From Verif Require Import Base Val Types Query QuerySpec Graph Queue QueueSpec QueueProof Result Engine EngineSpec CostSpec CallSpec SubSpec SubJob Validate ValidateSpec
  PropValidate PropValExec PropOptions PropBound GraphExt Introspect IntrospectSpec PropIntrospect PropIntroGraph PropIntroSound PropIntroList PropEndpoint
  IntroRun IntroRunSpec IntroMet IntroServe PropSub PropSubWf PropSubVal PropIntroRun IntroClient IntroAsk SubWfSpec.

Lemma forall2_same {A} (P : A -> A -> Prop) l : (forall x, x ∈ l -> P x x) -> Forall2 P l l.
Proof. induction l as [|x l IH]; intros Hl; constructor; [apply Hl; left|apply IH; intros; apply Hl; by right]. Qed.
Section reads.
  Context (L : loaders) (S : schema) (T : texts) (D : data) (g g' : graph).
  Hypothesis Hco : coherent S.
  Hypothesis Hjson : json_defaults S T.
  Hypothesis HD : describes L S T D.
  Hypothesis Hadd : add_introspection L g = Ok g'.
  Context (fv : gfield -> option val -> str -> opts -> val).
  Hypothesis Hfv : forall f m i n o, gf_func f = FPlain m -> fv f i n o = d_field D m i n o.
  Notation node := (nodeN L).
  Notation res := (resolve g' fv D).

  Lemma res_field k n f (i : val) num row v : find_field (node k) (s n) = Some (GF f) -> gf_func f = FPlain (ld_intro L num) ->
    row_of S T num i = Ok row -> row (s n) = Ok v -> res (node k) (Some i) (ask n) = Ok (s n, TP (PRaw (IVal v))).
  Proof.
    intros Hf Hp Hr Hv. unfold ask. cbn [resolve q_name q_opts]. rewrite Hf, (Hfv _ _ _ _ _ Hp), (ds_field _ _ _ _ HD), Hr, Hv. done.
  Qed.
  Arguments res_field _ _%string_scope.
  (** The object [j] of the node [k], asked for [sub], is read as [x] *)
  Definition obj_reads {A} (k : nat) (j : val) (sub : list qitem) (r : vtree -> option A) (x : A) : Prop :=
    exists ps, mapR (res (node k) (Some j)) sub = Ok ps /\ r (TO (of_pairs ps)) = Some x.
  Definition link_reads {B} (gn : gnode) (i : option val) (q : qitem) (r : vtree -> option B) (x : B) : Prop :=
    exists y, res gn i q = Ok (q_name q, y) /\ r y = Some x.
  (** The result of a link of an object which requires the identifier *)
  Definition leads (gn : gnode) (i : option val) (l : glink) (q : qitem) (v : val) : Prop := link_value fv D gn i l q = v.

  Lemma reads_many {B} gn i n o sub l k vs (r : vtree -> option B) bs :
    find_field gn (s n) = Some (GL l) -> gl_enum l = Many -> find_node g' (gl_node l) = Some (node k) ->
    link_value fv D gn i l (follow n o sub) = VList vs ->
    Forall2 (fun v b => obj_reads k v sub r b) vs bs -> link_reads gn i (follow n o sub) (r_list r) bs.
  Proof.
    intros Hf He Hn Hv Ha. unfold link_reads, follow in *. cbn [resolve q_name]. rewrite Hf, Hn, He, Hv. cbn [seq_items seq_of].
    assert (exists ys, mapR (fun j => match mapR (res (node k) (Some j)) sub with Ok ps => Ok (TO (of_pairs ps)) | Err e => Err e end) vs = Ok ys /\
      mapM r ys = Some bs) as (ys & Hys & Hr).
    { clear Hv. induction Ha as [|v b vs bs (ps & Hps & Hx) _ (ys & Hys & Hr)]; [by exists []|].
      exists (TO (of_pairs ps) :: ys). cbn [mapR]. rewrite Hps. fold (mapR (A := val) (B := vtree)).
      rewrite Hys. split; [done|]. cbn [mapM]. rewrite Hx. cbn. rewrite Hr. done. }
    unfold seq_items. cbn [seq_of]. rewrite Hys. exists (TL ys). done.
  Qed.
  Lemma reads_one {B} gn i n o sub l k v (r : vtree -> option B) x :
    find_field gn (s n) = Some (GL l) -> gl_enum l = One -> find_node g' (gl_node l) = Some (node k) ->
    link_value fv D gn i l (follow n o sub) = v -> obj_reads k v sub r x -> link_reads gn i (follow n o sub) r x.
  Proof.
    intros Hf He Hn Hv (ps & Hps & Hx). unfold link_reads, follow in *. cbn [resolve q_name]. rewrite Hf, Hn, He, Hv, Hps. by eexists.
  Qed.
  Lemma reads_maybe {B} gn i n o sub l k (t : option tident) (r : vtree -> option B) x :
    find_field gn (s n) = Some (GL l) -> gl_enum l = Maybe -> find_node g' (gl_node l) = Some (node k) ->
    link_value fv D gn i l (follow n o sub) = vmaybe t ->
    match t with Some t => exists y, x = Some y /\ obj_reads k (enc_t t) sub r y | None => x = None end ->
    link_reads gn i (follow n o sub) (r_maybe r) x.
  Proof.
    intros Hf He Hn Hv Hx. unfold link_reads, follow in *. cbn [resolve q_name]. rewrite Hf, Hn, He, Hv. destruct t as [t|]; cbn [vmaybe].
    - destruct Hx as (y & -> & ps & Hps & Hy). rewrite Hps. exists (TO (of_pairs ps)). split; [by destruct t|]. cbn. by rewrite Hy.
    - subst x. by eexists.
  Qed.
  Arguments reads_many {_} _ _ _%string_scope.
  Arguments reads_one {_} _ _ _%string_scope.
  Arguments reads_maybe {_} _ _ _%string_scope.
  (** Links of objects: the values *)
  Lemma link_req gn (i : val) l q k r x v : gl_func l = ld_intro L k -> gl_requires l = Some r -> field_value fv gn (Some i) r None = x ->
    link_of S k x = Ok v -> link_value fv D gn (Some i) l q = v.
  Proof. intros Hk Hr Hx Hv. unfold link_value, link_arg. rewrite Hr, Hk, (ds_link _ _ _ _ HD), Hx, Hv. done. Qed.
  Lemma link_root_value gn i l q k v : gl_func l = ld_intro L k -> gl_requires l = None -> link_root S k (link_opts l q) = Ok v ->
    link_value fv D gn i l q = v.
  Proof. intros Hk Hr Hv. unfold link_value, link_arg. rewrite Hr, Hk, (ds_root _ _ _ _ HD), Hv. done. Qed.

  Ltac val_req k num lem := eapply (link_req _ _ _ _ num (s "id")); [reflexivity|reflexivity|eapply (req_value L S T D HD fv Hfv); [reflexivity|reflexivity|lem]|].

  (** ** References to types *)
  Lemma type_row t k : fine S t -> type_kind t = Ok k -> exists row x, row_of S T 1 (enc_t t) = Ok row /\ row (s "kind") = Ok (VStr k) /\
    type_name t = Ok x /\ row (s "name") = Ok (vopt x).
  Proof. intros Hf Hk. cbn [row_of]. unfold type_info. rewrite dec_enc_t. destruct t; try (by destruct Hf); injection Hk as <-; do 2 eexists; (split; [reflexivity|done]). Qed.
  Lemma kind_of t : fine S t -> exists k, type_kind t = Ok k.
  Proof. destruct t; try (by destruct 1); intros; by eexists. Qed.
  Lemma of_type_value t sub o : fine S t ->
    link_value fv D (node 0) (Some (enc_t t)) (GLink (s "ofType") Graph.Maybe (s "__Type") (ld_intro L 5) (Some (s "id")) []) (follow "ofType" o sub) = vmaybe (type_of_type t).
  Proof.
    intros Ht. val_req 0 5%N ltac:(by apply type_id). cbn [link_of]. by rewrite dec_enc_t.
  Qed.
  Lemma of_type_res t sub : fine S t -> res (node 0) (Some (enc_t t)) (follow "ofType" None sub) =
    match type_of_type t with
    | Some t' => match mapR (res (node 0) (Some (enc_t t'))) sub with Ok ps => Ok (s "ofType", TO (of_pairs ps)) | Err e => Err e end
    | None => Ok (s "ofType", TP (PRaw (IVal VNone)))
    end.
  Proof.
    intros Hf. unfold follow. cbn [resolve q_name].
    change (find_field (node 0) (s "ofType")) with (Some (lnk L (s "ofType") Graph.Maybe (s "__Type") 5 (Some (s "id")) [])).
    cbn [lnk gl_enum gl_node]. rewrite (found L g g' Hadd 0 _ ltac:(lia) eq_refl).
    change (QL (s "ofType") sub false None None) with (follow "ofType" None sub).
    rewrite (of_type_value t sub None Hf). destruct (type_of_type t) as [t'|]; cbn [vmaybe]; [|done].
    destruct t'; cbn [enc_t]; destruct (mapR _ sub); done.
  Qed.
  Lemma ref_resolves e t : fine S t -> exists ps, mapR (res (node 0) (Some (enc_t t))) (ask_ref e) = Ok ps.
  Proof.
    revert t. induction e as [|e IH]; intros t Hf; destruct (kind_of t Hf) as (k & Hk); destruct (type_row t k Hf Hk) as (row & x & Hr & Hkr & Hx & Hnr);
      cbn [ask_ref app mapR]; rewrite (res_field 0 "kind" _ _ 1%N row (VStr k) eq_refl eq_refl Hr Hkr), (res_field 0 "name" _ _ 1%N row _ eq_refl eq_refl Hr Hnr); [by eexists|].
    rewrite of_type_res by done. destruct (type_of_type t) as [t'|] eqn:Et; [|by eexists].
    destruct (IH t') as (ps & ->); [by eapply of_fine|]. by eexists.
  Qed.
  Lemma ref_reads t gq e : fine S t -> client_reads t gq -> wrapped gq <= e -> obj_reads 0 (enc_t t) (ask_ref e) (r_ref e) gq.
  Proof.
    revert t gq. induction e as [|e IH]; intros t gq Hf Hc Hw.
    - destruct Hc as [i j x Hk Ho Hx|i j x Hk Ho Hx|i k n Hk H1 H2 Hn]; cbn [wrapped] in Hw; try lia.
      destruct (type_row i k Hf Hk) as (row & x & Hr & Hkr & Hx & Hnr). rewrite Hn in Hx. injection Hx as <-.
      exists [(s "kind", TP (PRaw (IVal (VStr k)))); (s "name", TP (PRaw (IVal (VStr n))))]. split.
      + cbn [ask_ref app mapR]. rewrite (res_field 0 "kind" _ _ 1%N row (VStr k) eq_refl eq_refl Hr Hkr).
        rewrite (res_field 0 "name" _ _ 1%N row _ eq_refl eq_refl Hr Hnr). done.
      + cbn [r_ref]. change (key "kind" _) with (Some (TP (PRaw (IVal (VStr k))))). cbn [mbind option_bind r_str r_raw].
        change (key "name" _) with (Some (TP (PRaw (IVal (VStr n))))). cbn [mbind option_bind].
        rewrite !bool_decide_eq_false_2 by done. done.
    - destruct (kind_of t Hf) as (k & Hk).
      destruct (type_row t k Hf Hk) as (row & x & Hr & Hkr & Hx & Hnr).
      assert (exists y, res (node 0) (Some (enc_t t)) (follow "ofType" None (ask_ref e)) = Ok (s "ofType", y) /\
        forall t' gq', type_of_type t = Some t' -> client_reads t' gq' -> wrapped gq' <= e -> r_ref e y = Some gq') as (y & Hy & Hry).
      { rewrite of_type_res by done. destruct (type_of_type t) as [t'|] eqn:Et; [|by eexists].
        assert (fine S t') as Hf' by (by eapply of_fine).
        destruct (ref_resolves e t' Hf') as (ps & Em). rewrite Em. exists (TO (of_pairs ps)). split; [done|].
        intros t'' gq' [= <-] Hc' Hw'. destruct (IH t' gq' Hf' Hc' Hw') as (ps' & Hps & Hrd).
        rewrite Em in Hps. injection Hps as <-. done. }
      exists [(s "kind", TP (PRaw (IVal (VStr k)))); (s "name", TP (PRaw (IVal (vopt x)))); (s "ofType", y)]. split.
      + cbn [ask_ref app mapR]. rewrite (res_field 0 "kind" _ _ 1%N row (VStr k) eq_refl eq_refl Hr Hkr).
        rewrite (res_field 0 "name" _ _ 1%N row _ eq_refl eq_refl Hr Hnr), Hy. done.
      + cbn [r_ref]. change (key "kind" _) with (Some (TP (PRaw (IVal (VStr k))))). cbn [mbind option_bind r_str r_raw].
        change (key "ofType" _) with (Some y). change (key "name" _) with (Some (TP (PRaw (IVal (vopt x))))). cbn [mbind option_bind].
        destruct Hc as [i j z Hk' Ho Hz|i j z Hk' Ho Hz|i k' n Hk' H1 H2 Hn]; cbn [wrapped] in Hw; rewrite Hk in Hk'; injection Hk' as ->.
        * rewrite bool_decide_eq_true_2 by done. rewrite (Hry j z Ho Hz); [done|lia].
        * rewrite bool_decide_eq_false_2 by done. rewrite bool_decide_eq_true_2 by done. rewrite (Hry j z Ho Hz); [done|lia].
        * rewrite !bool_decide_eq_false_2 by done. rewrite Hn in Hx. injection Hx as <-. done.
  Qed.
  (** ** Objects from their parts *)
  Definition res_is (k : nat) (j : val) (q : qitem) (y : vtree) : Prop := res (node k) (Some j) q = Ok (q_name q, y).
  Lemma objs k j sub ys : Forall2 (res_is k j) sub ys -> mapR (res (node k) (Some j)) sub = Ok (zip (map q_name sub) ys).
  Proof. induction 1 as [|q y sub ys Hq _ IH]; [done|]. cbn [mapR]. rewrite Hq, IH. done. Qed.

  Lemma input_reads a dd nm c dv t gq d : arg_fine S a -> input_value_info S T (enc_a a) = Ok dd -> dget (s "name") dd = Some (VStr nm) ->
    dget (s "description") dd = Some c -> dget (s "defaultValue") dd = Some dv -> arg_type S a = Ok t -> client_reads t gq -> wrapped gq <= d ->
    obj_reads 2 (enc_a a) (ask_input d) (r_input d) (CInput nm c gq dv).
  Proof.
    intros Ha Hd Hn Hcd Hdv Ht Hc Hw.
    assert (fine S t) as Hf by (destruct Ha as [(t' & Ht' & Hf) _]; rewrite Ht in Ht'; by injection Ht' as <-).
    assert (link_reads (node 2) (Some (enc_a a)) (follow "type" None (ask_ref d)) (r_ref d) gq) as (y & Hy & Hry).
    { eapply (reads_one _ _ "type" _ _ _ 0 (enc_t t)); [reflexivity|reflexivity|exact (found L g g' Hadd 0 _ ltac:(lia) eq_refl)| |by apply ref_reads].
      val_req 2 10%N ltac:(by apply arg_id). cbn [link_of]. by rewrite dec_enc_a, Ht. }
    assert (row_of S T 9 (enc_a a) = Ok (fun n => from_opt KeyError (dget n dd))) as Hrow by (cbn [row_of]; by rewrite Hd).
    exists [(s "name", TP (PRaw (IVal (VStr nm)))); (s "description", TP (PRaw (IVal c))); (s "defaultValue", TP (PRaw (IVal dv))); (s "type", y)]. split.
    - apply (objs 2 (enc_a a) (ask_input d) [TP (PRaw (IVal (VStr nm))); TP (PRaw (IVal c)); TP (PRaw (IVal dv)); y]).
      constructor; [|constructor; [|constructor; [|constructor; [exact Hy|constructor]]]].
      + eapply (res_field 2 "name"); [reflexivity|reflexivity|exact Hrow|]. cbn beta. by rewrite Hn.
      + eapply (res_field 2 "description"); [reflexivity|reflexivity|exact Hrow|]. cbn beta. by rewrite Hcd.
      + eapply (res_field 2 "defaultValue"); [reflexivity|reflexivity|exact Hrow|]. cbn beta. by rewrite Hdv.
    - unfold r_input. change (key "name" _) with (Some (TP (PRaw (IVal (VStr nm))))). change (key "description" _) with (Some (TP (PRaw (IVal c)))). cbn [mbind option_bind r_str r_raw].
      change (key "type" _) with (Some y). cbn [mbind option_bind]. rewrite Hry. done.
  Qed.
  Lemma field_reads f nm c l args t gq d : field_fine S f ->
    match field_info S T (enc_f f) with Ok dd => dget (s "name") dd = Some (VStr nm) /\ dget (s "description") dd = Some c /\
      dget (s "isDeprecated") dd = Some (VBool false) /\ dget (s "deprecationReason") dd = Some VNone | Err _ => False end ->
    field_args S f = Ok l -> Forall2 (fun a c => obj_reads 2 (enc_a a) (ask_input d) (r_input d) c) l args ->
    field_type S f = Ok t -> client_reads t gq -> wrapped gq <= d ->
    obj_reads 1 (enc_f f) (ask_field d) (r_field d) (CField nm c args gq (VBool false) VNone).
  Proof.
    intros Hff Hd Hl Hargs Ht Hc Hw. destruct (field_info S T (enc_f f)) as [dd|] eqn:Ed; [|done]. destruct Hd as (Hn & Hcd & Hdp & Hdr).
    assert (fine S t) as Hf by (destruct Hff as [(t' & Ht' & Hf) _]; rewrite Ht in Ht'; by injection Ht' as <-).
    assert (link_reads (node 1) (Some (enc_f f)) (follow "type" None (ask_ref d)) (r_ref d) gq) as (y & Hy & Hry).
    { eapply (reads_one _ _ "type" _ _ _ 0 (enc_t t)); [reflexivity|reflexivity|exact (found L g g' Hadd 0 _ ltac:(lia) eq_refl)| |by apply ref_reads].
      val_req 1 8%N ltac:(by apply field_id). cbn [link_of]. by rewrite dec_enc_f, Ht. }
    assert (link_reads (node 1) (Some (enc_f f)) (follow "args" None (ask_input d)) (r_list (r_input d)) args) as (z & Hz & Hrz).
    { eapply (reads_many _ _ "args" _ _ _ 2 (map enc_a l)); [reflexivity|reflexivity|exact (found L g g' Hadd 2 _ ltac:(lia) eq_refl)| |].
      - val_req 1 7%N ltac:(by apply field_id). cbn [link_of]. by rewrite dec_enc_f, Hl.
      - apply Forall2_fmap_l. exact Hargs. }
    assert (row_of S T 6 (enc_f f) = Ok (fun n => from_opt KeyError (dget n dd))) as Hrow by (cbn [row_of]; by rewrite Ed).
    exists [(s "name", TP (PRaw (IVal (VStr nm)))); (s "description", TP (PRaw (IVal c))); (s "isDeprecated", TP (PRaw (IVal (VBool false))));
            (s "deprecationReason", TP (PRaw (IVal VNone))); (s "args", z); (s "type", y)]. split.
    - apply (objs 1 (enc_f f) (ask_field d) [TP (PRaw (IVal (VStr nm))); TP (PRaw (IVal c)); TP (PRaw (IVal (VBool false))); TP (PRaw (IVal VNone)); z; y]).
      constructor; [|constructor; [|constructor; [|constructor; [|constructor; [exact Hz|constructor; [exact Hy|constructor]]]]]].
      + eapply (res_field 1 "name"); [reflexivity|reflexivity|exact Hrow|]. cbn beta. by rewrite Hn.
      + eapply (res_field 1 "description"); [reflexivity|reflexivity|exact Hrow|]. cbn beta. by rewrite Hcd.
      + eapply (res_field 1 "isDeprecated"); [reflexivity|reflexivity|exact Hrow|]. cbn beta. by rewrite Hdp.
      + eapply (res_field 1 "deprecationReason"); [reflexivity|reflexivity|exact Hrow|]. cbn beta. by rewrite Hdr.
    - unfold r_field. change (key "name" _) with (Some (TP (PRaw (IVal (VStr nm))))). change (key "description" _) with (Some (TP (PRaw (IVal c)))).
      cbn [mbind option_bind r_str r_raw].
      change (key "args" _) with (Some z). cbn [mbind option_bind]. rewrite Hrz. cbn [mbind option_bind].
      change (key "type" _) with (Some y). cbn [mbind option_bind]. rewrite Hry. done.
  Qed.

  Lemma none_reads t n o sub k {B} (r : vtree -> option B) : fine S t ->
    (exists l, find_field (node 0) (s n) = Some (GL l) /\ gl_enum l = Many /\ find_node g' (gl_node l) = Some (node k) /\
      gl_func l = ld_intro L 3 /\ gl_requires l = Some (s "id")) ->
    link_reads (node 0) (Some (enc_t t)) (follow n o sub) (r_list r) [].
  Proof.
    intros Hf (l & Hl & He & Hn & Hk & Hr). eapply (reads_many _ _ n _ _ l k []); [done|done|done| |constructor].
    eapply (link_req _ _ _ _ 3%N (s "id")); [done|done|eapply (req_value L S T D HD fv Hfv); [reflexivity|reflexivity|by apply type_id]|done].
  Qed.
  Arguments none_reads _ _%string_scope.
  Lemma type_reads t k nm dd c fs cf l ci d : fine S t -> type_kind t = Ok k -> type_name t = Ok (Some nm) ->
    type_info S T (enc_t t) = Ok dd -> default VNone (dget (s "description") dd) = c ->
    type_fields S t = Ok fs -> Forall2 (fun f c => obj_reads 1 (enc_f f) (ask_field d) (r_field d) c) fs cf ->
    input_fields S t = Ok l -> Forall2 (fun a c => obj_reads 2 (enc_a a) (ask_input d) (r_input d) c) l ci ->
    obj_reads 0 (enc_t t) (ask_type d) (r_type d) (CType k nm c cf ci [] [] []).
  Proof.
    intros Hf Hk Hnm Hdd Hdc Hfs Hcf Hl Hci. destruct (type_row t k Hf Hk) as (row & x & Hr & Hkr & Hx & Hnr). rewrite Hnm in Hx. injection Hx as <-.
    assert (link_reads (node 0) (Some (enc_t t)) (follow "fields" deprecated_too (ask_field d)) (r_list (r_field d)) cf) as (y1 & Hy1 & R1).
    { eapply (reads_many _ _ "fields" _ _ _ 1 (map enc_f fs)); [reflexivity|reflexivity|exact (found L g g' Hadd 1 _ ltac:(lia) eq_refl)| |].
      - val_req 0 2%N ltac:(by apply type_id). cbn [link_of]. by rewrite dec_enc_t, Hfs.
      - apply Forall2_fmap_l. exact Hcf. }
    assert (link_reads (node 0) (Some (enc_t t)) (follow "inputFields" None (ask_input d)) (r_list (r_input d)) ci) as (y2 & Hy2 & R2).
    { eapply (reads_many _ _ "inputFields" _ _ _ 2 (map enc_a l)); [reflexivity|reflexivity|exact (found L g g' Hadd 2 _ ltac:(lia) eq_refl)| |].
      - val_req 0 4%N ltac:(by apply type_id). cbn [link_of]. by rewrite dec_enc_t, Hl.
      - apply Forall2_fmap_l. exact Hci. }
    assert (link_reads (node 0) (Some (enc_t t)) (follow "interfaces" None (ask_ref d)) (r_list (r_ref d)) []) as (y3 & Hy3 & R3).
    { apply (none_reads t "interfaces" None (ask_ref d) 0 (r_ref d) Hf). eexists. split; [reflexivity|]. split; [reflexivity|].
      split; [exact (found L g g' Hadd 0 _ ltac:(lia) eq_refl)|done]. }
    assert (link_reads (node 0) (Some (enc_t t)) (follow "enumValues" deprecated_too ask_enum) (r_list r_named) []) as (y4 & Hy4 & R4).
    { apply (none_reads t "enumValues" deprecated_too ask_enum 4 r_named Hf). eexists. split; [reflexivity|]. split; [reflexivity|].
      split; [exact (found L g g' Hadd 4 _ ltac:(lia) eq_refl)|done]. }
    assert (link_reads (node 0) (Some (enc_t t)) (follow "possibleTypes" None (ask_ref d)) (r_list (r_ref d)) []) as (y5 & Hy5 & R5).
    { apply (none_reads t "possibleTypes" None (ask_ref d) 0 (r_ref d) Hf). eexists. split; [reflexivity|]. split; [reflexivity|].
      split; [exact (found L g g' Hadd 0 _ ltac:(lia) eq_refl)|done]. }
    assert (row (s "description") = Ok c) as Hcr by (cbn [row_of] in Hr; rewrite Hdd in Hr; injection Hr as <-; by rewrite Hdc).
    exists (zip (map q_name (ask_type d)) [TP (PRaw (IVal (VStr k))); TP (PRaw (IVal (VStr nm))); TP (PRaw (IVal c)); y1; y2; y3; y4; y5]). split.
    - apply objs. constructor; [by eapply (res_field 0 "kind"); [reflexivity|reflexivity|exact Hr|]|].
      constructor; [by eapply (res_field 0 "name"); [reflexivity|reflexivity|exact Hr|]|].
      constructor; [by eapply (res_field 0 "description"); [reflexivity|reflexivity|exact Hr|]|].
      repeat (constructor; [assumption|]). constructor.
    - unfold r_type. change (key "kind" _) with (Some (TP (PRaw (IVal (VStr k))))). change (key "name" _) with (Some (TP (PRaw (IVal (VStr nm))))).
      change (key "description" _) with (Some (TP (PRaw (IVal c)))). change (key "fields" _) with (Some y1). change (key "inputFields" _) with (Some y2). change (key "interfaces" _) with (Some y3).
      change (key "enumValues" _) with (Some y4). change (key "possibleTypes" _) with (Some y5).
      cbn [mbind option_bind r_str r_raw]. rewrite R1, R2, R3, R4, R5. done.
  Qed.
  Lemma directive_reads n c ca d : n ∈ [s "skip"; s "include"] -> directive_descr n = VStr c -> arg_descr n = Ok (VStr ca) -> 1 <= d ->
    obj_reads 3 (enc_t (IdDirective n)) (ask_directive d) (r_directive d)
      (CDirective n (VStr c) (VList (map VStr [s "FIELD"; s "FRAGMENT_SPREAD"; s "INLINE_FRAGMENT"])) [CInput (s "if") (VStr ca) (GNonNull (GName (s "Boolean"))) VNone]).
  Proof.
    intros Hn Hc Hca Hd. set (locs := VList _).
    assert (arg_fine S (ArgDirective n)) as Ha.
    { split; [|done]. exists (IdNonNull (IdScalar (s "Boolean"))). split; [done|]. unfold fine. cbn [base]. apply (bool_decide_unpack _); vm_compute; exact I. }
    assert (link_reads (node 3) (Some (enc_t (IdDirective n))) (follow "args" None (ask_input d)) (r_list (r_input d)) [CInput (s "if") (VStr ca) (GNonNull (GName (s "Boolean"))) VNone]) as (y & Hy & Hr).
    { eapply (reads_many _ _ "args" _ _ _ 2 (map enc_a [ArgDirective n])); [reflexivity|reflexivity|exact (found L g g' Hadd 2 _ ltac:(lia) eq_refl)| |].
      - eapply (link_req _ _ _ _ 12%N (s "name") (VStr n)); [reflexivity|reflexivity|eapply (req_value L S T D HD fv Hfv); [reflexivity|reflexivity|by eexists]|done].
      - constructor; [|constructor].
        assert (exists dd, input_value_info S T (enc_a (ArgDirective n)) = Ok dd /\ dget (s "name") dd = Some (VStr (s "if")) /\
          dget (s "description") dd = Some (VStr ca) /\ dget (s "defaultValue") dd = Some VNone) as (dd & H1 & H2 & Hc2 & H3).
        { unfold input_value_info. rewrite dec_enc_a, Hca. eexists. split; [reflexivity|]. split; [reflexivity|]. split; reflexivity. }
        eapply (input_reads _ dd); [done|exact H1|exact H2|exact Hc2|exact H3|reflexivity| |cbn [wrapped]; lia].
        eapply cr_nonnull; [reflexivity|reflexivity|]. by eapply cr_name. }
    exists (zip (map q_name (ask_directive d)) [TP (PRaw (IVal (VStr n))); TP (PRaw (IVal (VStr c))); TP (PRaw (IVal locs)); y]). split.
    - apply objs. constructor; [by eapply (res_field 3 "name"); [reflexivity|reflexivity|reflexivity|]|].
      constructor; [eapply (res_field 3 "description"); [reflexivity|reflexivity|reflexivity|]; by rewrite <-Hc|].
      constructor; [by eapply (res_field 3 "locations"); [reflexivity|reflexivity|reflexivity|]|]. constructor; [exact Hy|constructor].
    - unfold r_directive. change (key "name" _) with (Some (TP (PRaw (IVal (VStr n))))). change (key "description" _) with (Some (TP (PRaw (IVal (VStr c))))). change (key "locations" _) with (Some (TP (PRaw (IVal locs)))).
      change (key "args" _) with (Some y). cbn [mbind option_bind r_str r_raw]. rewrite Hr. done.
  Qed.
  (** ** The whole schema *)
  Context (d : nat).
  Hypothesis Hdn : distinct_names S.
  Hypothesis Hdeep : deep_enough S d.
  Lemma nodes_eq : schema_nodes S = named_nodes S.
  Proof. unfold schema_nodes. rewrite of_pairs_NoDup; [done|]. apply (dn_nodes S Hdn). Qed.
  Lemma visible_public x : visible (gi_name x) = public x.
  Proof.
    unfold public, visible. destruct (gi_name x) as [|c r]; [done|]. cbn [head].
    destruct (decide (c = 95%N)) as [->|Hne]; [done|]. rewrite bool_decide_eq_false_2 by (intros [= ?]; done).
    destruct c as [|p]; [done|]. repeat (destruct p as [p|p|]; try done).
  Qed.
  Lemma fields_public gn : List.filter visible (map gi_name (gn_fields gn)) = map gi_name (List.filter public (gn_fields gn)).
  Proof. induction (gn_fields gn) as [|x l IH]; [done|]. cbn [map List.filter]. rewrite visible_public. destruct (public x); cbn [map]; by rewrite IH. Qed.
  Lemma node_get n gn : (n, gn) ∈ named_nodes S -> dget n (schema_nodes S) = Some gn.
  Proof. intros Hin. rewrite nodes_eq. apply dget_NoDup; [apply (dn_nodes S Hdn)|done]. Qed.
  Lemma option_reads n gn x o : (n, gn) ∈ named_nodes S -> x ∈ gn_fields gn -> public x = true -> o ∈ gi_options x ->
    arg_fine S (ArgField n (gi_name x) (go_name o)) ->
    obj_reads 2 (enc_a (ArgField n (gi_name x) (go_name o))) (ask_input d) (r_input d) (e_input T n x o).
  Proof.
    intros Hin Hx Hp Ho Ha. pose proof (node_get n gn Hin) as Hg. destruct (dn_members S Hdn n gn Hin) as [Hm Hop].
    pose proof (find_field_unique gn x Hm Hx) as Hfx. specialize (Hop x Hx).
    destruct (co_nodes S Hco n gn Hg) as [_ Hall]. destruct (Hall x Hx ltac:(by rewrite visible_public)) as [_ Hty].
    destruct (Hty o Ho) as (t & Ht & _).
    pose proof (arg_type_option S n gn (gi_name x) x o t Hg Hfx Hop Ho Ht) as Hat.
    destruct Ha as [(i & Hi & Hfi) Hd']. pose proof Hi as Hi'. rewrite Hat in Hi'.
    unfold e_input. rewrite Ht. cbn [default].
    assert (arg_option S n (gi_name x) (go_name o) = Ok o) as Hopt.
    { unfold arg_option, schema_field. cbn [fst snd]. rewrite Hg, Hfx. cbn [from_opt].
      rewrite of_pairs_NoDup by (unfold dkeys; rewrite map_map; exact Hop).
      rewrite (dget_NoDup (go_name o) o); [done| |].
      - unfold dkeys. rewrite map_map. exact Hop.
      - apply elem_of_list_fmap. by exists o. }
    assert (exists dd, input_value_info S T (enc_a (ArgField n (gi_name x) (go_name o))) = Ok dd /\ dget (s "name") dd = Some (VStr (go_name o)) /\
      dget (s "description") dd = Some (tx_option T n (gi_name x) (go_name o)) /\
      dget (s "defaultValue") dd = Some match go_default o with VNothing => VNone | v => or_none (tx_json T v) end) as (dd & H1 & H2 & Hc2 & H3).
    { unfold input_value_info. rewrite dec_enc_a, Hopt.
      destruct (decide (go_default o = VNothing)) as [->|Hne]; [eexists; split; [reflexivity|split; [reflexivity|split; reflexivity]]|].
      destruct (Hjson n gn x o Hg Hx Ho Hne) as [v Hv].
      assert (match go_default o with VNothing => Ok VNone | v => tx_json T v end = Ok v) as -> by (destruct (go_default o); done).
      eexists. split; [reflexivity|]. split; [reflexivity|]. split; [reflexivity|]. destruct (go_default o); try done; rewrite Hv; done. }
    eapply (input_reads _ dd); [|exact H1|exact H2|exact Hc2|exact H3|exact Hi|by apply (C43_client_reads _ true t i Hi')|].
    - split; [by exists i|done].
    - apply Hdeep. by eapply (dc_option S n gn x o).
  Qed.
  Lemma member_reads n gn x : (n, gn) ∈ named_nodes S -> x ∈ gn_fields gn -> public x = true -> field_fine S (n, gi_name x) ->
    obj_reads 1 (enc_f (n, gi_name x)) (ask_field d) (r_field d) (e_field T n x).
  Proof.
    intros Hin Hx Hp Hff. pose proof (node_get n gn Hin) as Hg. destruct (dn_members S Hdn n gn Hin) as [Hm Hop].
    pose proof (find_field_unique gn x Hm Hx) as Hfx. specialize (Hop x Hx).
    destruct (C44_arguments S n gn (gi_name x) x Hg Hfx Hop) as (Hargs & _ & _).
    pose proof Hff as [(t & Ht & Hft) (l & Hl & Hla)]. rewrite Hargs in Hl. injection Hl as <-.
    eapply (field_reads _ _ _ _ _ t); [done| |exact Hargs| |exact Ht|by apply (C44_field_types S n gn (gi_name x) x t)|].
    - unfold field_info. rewrite dec_enc_f. unfold in_nodes. rewrite bool_decide_eq_true_2 by (apply dget_is_Some; by exists gn).
      unfold schema_field. cbn [fst snd]. rewrite Hg, Hfx. cbn [from_opt]. done.
    - apply Forall2_fmap. apply forall2_same. intros o Ho. eapply option_reads; [done|done|done|done|].
      apply Hla. apply elem_of_list_fmap. by exists o.
    - apply Hdeep. by eapply (dc_member S n gn x).
  Qed.
  Lemma node_reads n gn : (n, gn) ∈ named_nodes S -> obj_reads 0 (enc_t (IdObject n)) (ask_type d) (r_type d) (e_node T (n, gn)).
  Proof.
    intros Hin. pose proof (node_get n gn Hin) as Hg.
    assert (fine S (IdObject n)) as Hf by (left; apply dget_is_Some; by exists gn).
    destruct (fields_fine S Hco _ Hf) as (fs & Hfs & Hff). destruct (co_nodes S Hco n gn Hg) as [(x0 & Hx0 & Hv0) _].
    assert (fs = map (fun x => (n, gi_name x)) (List.filter public (gn_fields gn))) as ->.
    { cbn [type_fields] in Hfs. rewrite Hg, fields_public, map_map in Hfs. destruct (map _ _); [done|]. by injection Hfs as <-. }
    eapply (type_reads _ _ _ [(s "id", enc_t (IdObject n)); (s "kind", VStr (s "OBJECT")); (s "name", VStr n); (s "description", tx_node T n)]);
      [done|reflexivity|reflexivity| |reflexivity|exact Hfs| |reflexivity|constructor].
    { unfold type_info. rewrite dec_enc_t. unfold in_nodes. rewrite bool_decide_eq_true_2 by (apply dget_is_Some; by exists gn). done. }
    apply Forall2_fmap. apply forall2_same. intros x Hx. assert (x ∈ gn_fields gn /\ public x = true) as [Hx1 Hx2].
    { apply elem_of_list_In, filter_In in Hx as [Hx ?]. split; [by apply elem_of_list_In|done]. }
    eapply member_reads; [done|done|done|]. apply Hff. apply elem_of_list_fmap. by exists x.
  Qed.
  Lemma record_reads n u : (n, u) ∈ sc_types S -> is_record u = true -> Forall2 (fun t c => obj_reads 0 (enc_t t) (ask_type d) (r_type d) c) [IdObject n; IdInput n] (e_record (n, u)).
  Proof.
    intros Hin Hr. destruct u as [| | | | | | | | |fs|]; try done. unfold e_record. cbn [fst snd].
    assert (dget n (sc_types S) = Some (TRec fs)) as Hg by (apply dget_NoDup; [apply (co_dict S Hco)|done]).
    destruct (co_types S Hco n fs Hg) as (Hne & Hd & _).
    assert (dget n (schema_nodes S) = None) as Hno by (rewrite nodes_eq; apply dget_None; intros Hk; by apply (dn_records S Hdn n _ Hin)).
    destruct (C44_record_fields S n fs Hg Hd) as (Hobj & Hinp & Hall). specialize (Hobj Hno Hne).
    assert (record_type S n) as Hrt by (by exists fs).
    constructor; [|constructor; [|constructor]].
    - assert (fine S (IdObject n)) as Hf by by right. destruct (fields_fine S Hco _ Hf) as (fs' & Hfs & Hff). rewrite Hobj in Hfs. injection Hfs as <-.
      assert (in_nodes S n = false) as Hin0.
      { unfold in_nodes. apply bool_decide_eq_false_2. intros Hk'. apply dget_is_Some in Hk' as [? Hk']. by rewrite Hno in Hk'. }
      eapply (type_reads _ _ _ [(s "id", enc_t (IdObject n)); (s "kind", VStr (s "OBJECT")); (s "name", VStr n); (s "description", VNone)]);
        [done|reflexivity|reflexivity| |reflexivity|exact Hobj| |reflexivity|constructor].
      { unfold type_info. by rewrite dec_enc_t, Hin0. }
      apply Forall2_fmap. apply forall2_same. intros [k t] Hkt. cbn [fst snd].
      assert (field_fine S (n, k)) as Hk by (apply Hff; apply elem_of_list_fmap; by exists (k, t)). destruct (Hall k t Hkt) as (Hfo & _).
      pose proof Hk as [(i & Hi & _) _]. specialize (Hfo i Hno Hi).
      eapply (field_reads _ _ _ _ _ i); [done| | |constructor|exact Hi|exact Hfo|apply Hdeep; by eapply (dc_record S n fs k t)].
      + unfold field_info. rewrite dec_enc_f. unfold in_nodes. rewrite bool_decide_eq_false_2; [done|].
        cbn [fst]. intros Hk'. apply dget_is_Some in Hk' as [? Hk']. by rewrite Hno in Hk'.
      + unfold field_args. cbn [fst]. by rewrite Hno.
    - assert (fine S (IdInput n)) as Hf by done. destruct (inputs_fine S Hco _ Hf) as (l & Hl & Hla). rewrite Hinp in Hl. injection Hl as <-.
      eapply type_reads; [done|reflexivity|reflexivity|reflexivity|reflexivity|reflexivity|constructor|exact Hinp|].
      apply Forall2_fmap. apply forall2_same. intros [k t] Hkt. cbn [fst snd].
      assert (arg_fine S (ArgInput n k)) as Hk by (apply Hla; apply elem_of_list_fmap; by exists (k, t)). destruct (Hall k t Hkt) as (_ & _ & _ & Hfo).
      pose proof Hk as [(i & Hi & _) _]. specialize (Hfo i Hi).
      eapply (input_reads _ _ _ _ _ i); [done|reflexivity|reflexivity|reflexivity|reflexivity|exact Hi|exact Hfo|apply Hdeep; by eapply (dc_record S n fs k t)].
  Qed.
  Lemma types_read : Forall2 (fun t c => obj_reads 0 (enc_t t) (ask_type d) (r_type d) c) (root_schema_types S) (cs_types (e_schema S T)).
  Proof.
    unfold root_schema_types, e_schema. cbn [cs_types]. apply Forall2_app; [|apply Forall2_app].
    - apply Forall2_fmap. apply forall2_same. intros n Hn.
      assert (fine S (IdScalar n)) as Hf by (unfold fine; cbn [base]; exact Hn).
      eapply type_reads; [exact Hf|reflexivity|reflexivity|reflexivity|reflexivity|reflexivity|constructor|reflexivity|constructor].
    - rewrite nodes_eq. unfold dkeys. rewrite map_map. apply Forall2_fmap. apply forall2_same. intros [n gn] Hin. cbn [fst]. by apply node_reads.
    - assert (forall p, p ∈ sc_types S -> p ∈ sc_types S) as Hall by done. revert Hall. generalize (sc_types S) at 1 3 4. intros l Hall.
      induction l as [|[n u] l IH]; [constructor|]. cbn [flat_map]. apply Forall2_app; [|apply IH; intros p Hp; apply Hall; by right].
      destruct (is_record u) eqn:Er; [apply record_reads; [apply Hall; left|done]|]. destruct u; try constructor. discriminate Er.
  Qed.

  Lemma named_reads t n : fine S t -> type_name t = Ok (Some n) -> obj_reads 0 (enc_t t) [ask "name"] r_named n.
  Proof.
    intros Hf Hn. destruct (kind_of t Hf) as (k & Hk). destruct (type_row t k Hf Hk) as (row & x & Hr & _ & Hx & Hnr). rewrite Hn in Hx. injection Hx as <-.
    exists [(s "name", TP (PRaw (IVal (VStr n))))]. split; [|done]. cbn [mapR]. by rewrite (res_field 0 "name" _ _ 1%N row _ eq_refl eq_refl Hr Hnr).
  Qed.
  Lemma schema_reads i : obj_reads 5 i (ask_schema d) (fun t => r_schema d (TO [(s "__schema", t)])) (e_schema S T).
  Proof.
    assert (link_reads (node 5) (Some i) (follow "queryType" None [ask "name"]) r_named (s "Query")) as (y1 & H1 & R1).
    { eapply (reads_one _ _ "queryType" _ _ _ 0 (enc_t root_query_type)); [reflexivity|reflexivity|exact (found L g g' Hadd 0 _ ltac:(lia) eq_refl)| |].
      - by eapply (link_root_value _ _ _ _ 15%N).
      - apply named_reads; [apply query_fine|done]. }
    assert (link_reads (node 5) (Some i) (follow "mutationType" None [ask "name"]) (r_maybe r_named) (match sc_mutation S with Some _ => Some (s "Mutation") | None => None end)) as (y2 & H2 & R2).
    { eapply (reads_maybe _ _ "mutationType" _ _ _ 0 (root_mutation_type S)); [reflexivity|reflexivity|exact (found L g g' Hadd 0 _ ltac:(lia) eq_refl)| |].
      - by eapply (link_root_value _ _ _ _ 16%N).
      - pose proof (mutation_fine S) as Hm. unfold root_mutation_type in *. destruct (sc_mutation S); [|done]. eexists. split; [done|].
        apply named_reads; [by apply Hm|done]. }
    assert (link_reads (node 5) (Some i) (follow "subscriptionType" None [ask "name"]) (r_maybe r_named) None) as (y3 & H3 & R3).
    { eapply (reads_maybe _ _ "subscriptionType" _ _ _ 0 None); [reflexivity|reflexivity|exact (found L g g' Hadd 0 _ ltac:(lia) eq_refl)| |done].
      by eapply (link_root_value _ _ _ _ 17%N). }
    assert (link_reads (node 5) (Some i) (follow "types" None (ask_type d)) (r_list (r_type d)) (cs_types (e_schema S T))) as (y4 & H4 & R4).
    { eapply (reads_many _ _ "types" _ _ _ 0 (map enc_t (root_schema_types S))); [reflexivity|reflexivity|exact (found L g g' Hadd 0 _ ltac:(lia) eq_refl)| |].
      - by eapply (link_root_value _ _ _ _ 14%N).
      - apply Forall2_fmap_l. apply types_read. }
    assert (link_reads (node 5) (Some i) (follow "directives" None (ask_directive d)) (r_list (r_directive d)) (cs_directives (e_schema S T))) as (y5 & H5 & R5).
    { eapply (reads_many _ _ "directives" _ _ _ 3 (map enc_t root_directives)); [reflexivity|reflexivity|exact (found L g g' Hadd 3 _ ltac:(lia) eq_refl)| |].
      - by eapply (link_root_value _ _ _ _ 18%N).
      - destruct Hdeep as [Hd1 _].
        constructor; [apply directive_reads; [left|done|done|done]|]. constructor; [apply directive_reads; [right; left|done|done|done]|constructor]. }
    exists (zip (map q_name (ask_schema d)) [y1; y2; y3; y4; y5]). split.
    - apply objs. repeat (constructor; [assumption|]). constructor.
    - cbn beta. set (dd := of_pairs _). unfold r_schema.
      change (key "__schema" (TO [(s "__schema", TO dd)])) with (Some (TO dd)). cbn [mbind option_bind].
      change (key "queryType" _) with (Some y1). change (key "mutationType" _) with (Some y2). change (key "subscriptionType" _) with (Some y3).
      change (key "types" _) with (Some y4). change (key "directives" _) with (Some y5). cbn [mbind option_bind]. rewrite R1, R2, R3, R4, R5. done.
  Qed.
  Lemma standard_resolves : exists t, resolve_query g' fv D (standard_query d) = Ok t /\ r_schema d t = Some (e_schema S T).
  Proof.
    destruct (schema_reads VNone) as (ps & Hps & Hr). exists (TO [(s "__schema", TO (of_pairs ps))]). split; [|exact Hr].
    unfold resolve_query. cbn [standard_query qfields mapR]. unfold follow at 1. cbn [resolve q_name].
    rewrite (found_root L g g' Hadd). cbn [lnk gl_enum gl_node]. rewrite (found L g g' Hadd 5 _ ltac:(lia) eq_refl).
    match goal with |- context [link_value ?a ?b ?c ?e ?l ?q] => assert (link_value a b c e l q = VNone) as -> by (by eapply (link_root_value _ _ _ _ 19%N)) end.
    rewrite Hps. done.
  Qed.
End reads.

(** Some execution of a query comes to an end *)
Lemma some_execution `{Hasher} E g q q' fuel : nested (e_sgs E) -> no_fuel_exn E -> init_options g q = Ok q' -> max_work E g q' < fuel ->
  exists sched r, execute E fuel g q sched r.
Proof.
  intros Hn Hf Hi Hw. destruct (start E g q) as [x|e] eqn:Ex.
  - destruct (C05_terminates E g q q' Hn Hi Hf fuel [] x x Hw Ex (rd_nil E fuel x)) as (sched & r & Hr & _). by exists sched, r.
  - exists [], (Err e). by constructor.
Qed.

(** C57: a client which sends the standard query about the schema reads from the answer - whatever the schedule - the
    schema as it is declared: all its types, their members, the arguments and their defaults, following [ofType] as far as
    the declared types go. *)
Theorem C57_client_reads_schema `{Hasher} (L : loaders) (S : schema) (T : texts) (E : env) (D : data) (parts : gfield -> bool) (g g' : graph) (d : nat) :
  coherent S -> json_defaults S T -> distinct_names S -> deep_enough S d ->
  wf_env E parts -> wf_graph E parts g -> distinct_options g -> add_introspection L g = Ok g' -> apart L E g ->
  runs_introspection S T L E -> describes L S T D ->
  (forall m c, own_loader E g (c_func c) -> exists r, ret_val (e_oracle E m c) = Some r /\ answers D c r) ->
  data_ok E D g -> env_data_ok E D -> respects_options D -> reads_by_name E -> no_fuel_exn E ->
  forall fuel, max_work E g' (standard_query d) < fuel ->
  (exists sched r, execute E fuel g' (standard_query d) sched r) /\
  forall sched r, execute E fuel g' (standard_query d) sched r ->
    exists idx t, r = Ok (idx, standard_query d) /\ denormalize g' idx (standard_query d) = Ok t /\ r_schema d t = Some (e_schema S T).
Proof.
  intros Hco Hjson Hdn Hdeep Henv Hwf Hdist Hadd Hap Hruns HD Huser Hdata Hedata Hresp Hreads Hfuel fuel Hw.
  split; [eapply some_execution; [by eapply we_nested|done|by eapply standard_init|exact Hw]|]. intros sched r He.
  destruct (C56_fitting_queries L S T E D parts g g' (standard_query d) Hco Hjson Henv Hwf Hdist Hadd Hap Hruns HD Huser Hdata Hedata Hresp Hreads Hfuel)
    as (q' & Hi & Hrun).
  - by eapply standard_unchecked.
  - intros gn n Hv. eapply asks_once. by eapply visited_asks.
  - by eapply standard_fits.
  - rewrite (standard_init L g g' Hadd d) in Hi. injection Hi as <-.
    destruct (Hrun ltac:(intros gn; by eapply standard_collision) fuel sched r Hw He) as (idx & -> & Hden).
    destruct (standard_resolves L S T D g g' Hco Hjson HD Hadd (sub_value E D)) with (d := d) as (t & Ht & Hr); try done.
    { intros f m i n o Hp. unfold sub_value. destruct (length (e_sgs E)); cbn [field_val]; [unfold plain_value|unfold field_with]; by rewrite Hp. }
    exists idx, t. rewrite Hden. done.
Qed.
Print Assumptions C57_client_reads_schema.
