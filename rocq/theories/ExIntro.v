(** A concrete case of C56 and C57: the schema of C44_example, its loaders, and those of introspection. *)
From stdpp Require Import relations countable.
From Verif Require Import Base Val Types Query QuerySpec Graph Queue QueueSpec QueueProof Result Engine EngineSpec CostSpec CallSpec SubSpec SubJob Validate ValidateSpec
  PropValidate PropValExec PropOptions PropBound GraphExt Introspect IntrospectSpec PropIntrospect PropIntroGraph PropIntroSound PropIntroList PropEndpoint ExprRun PropExprRun Examples ExEngine
  IntroRun IntroRunSpec IntroMet IntroServe PropSub PropSubWf PropSubVal PropIntroRun IntroClient IntroAsk PropIntroClient SubWfSpec.

Definition ie_code (x : str + N) : N := (100 + N.pos (encode x))%N.
Definition ie_which (f : N) : option (str + N) := match (f - 100)%N with N0 => None | N.pos p => decode p end.
Lemma ie_which_code x : ie_which (ie_code x) = Some x.
Proof. unfold ie_which, ie_code. replace (100 + N.pos (encode x) - 100)%N with (N.pos (encode x)) by lia. apply decode_encode. Qed.
Definition ie_loaders : loaders := Loaders (fun n => ie_code (inl n)) (fun k => ie_code (inr k)).
Definition ie_graph : graph := PropIntrospect.ex_query.
Definition ie_schema : schema := PropIntrospect.ex_schema.
Definition ie_texts : texts := Texts (fun n => VStr (s "about " ++ n)) (fun f => VStr (s "field " ++ f.2)) (fun n f o => VStr (s "option " ++ o)) (fun _ => Ok (VStr (s "json"))).
(** Two users, with names; no statistics *)
Definition ie_data : data := Data
  (fun f i n o => match ie_which f with
                  | Some (inl x) => VStr x
                  | Some (inr k) => match i with
                                    | Some i => or_none (match row_of ie_schema ie_texts k i with Ok row => row n | Err e => Err e end)
                                    | None => VNone
                                    end
                  | None => if decide (f = 3%N) then VList [] else
                            if decide (n = s "id") then default VNone i else VStr (s "user")
                  end)
  (fun f i o => match ie_which f with
                | Some (inl x) => VNone
                | Some (inr k) => or_none match i with Some i => link_of ie_schema k i | None => link_root ie_schema k o end
                | None => VList [VInt 1; VInt 2]
                end).
Definition ie_env (eager : bool) : env :=
  Env [] (fun _ c => match ie_which (c_func c) with
                     | Some (inl n) => outcome_of (typename_call n (c_args c))
                     | Some (inr k) => outcome_of (intro_call ie_schema ie_texts k (c_args c))
                     | None => oracle_of ie_data c
                     end) (fun _ => false) (fun _ _ _ _ => Err KeyError) eager.
Lemma ie_runs eager : runs_introspection ie_schema ie_texts ie_loaders (ie_env eager).
Proof.
  split; [intros m c n Hc|intros m c n Hc|done]; cbn [e_oracle ie_env]; rewrite Hc; cbn [ie_loaders ld_typename ld_intro]; by rewrite ie_which_code.
Qed.
Lemma ie_describes : describes ie_loaders ie_schema ie_texts ie_data.
Proof. split; intros; cbn [d_field d_link ie_data ie_loaders ld_typename ld_intro]; by rewrite ie_which_code. Qed.
Lemma ie_own f : own_loader (ie_env true) ie_graph f -> (f <= 4)%N.
Proof.
  intros [(n & x & Hn & Hx & Hf)|(sg & G & node & Hl & _)]; [|done].
  unfold ie_graph, PropIntrospect.ex_query in Hn. cbn [g_items] in Hn.
  rewrite !elem_of_cons, elem_of_nil in Hn. destruct Hn as [->|[->|[]]]; cbn [gn_fields] in Hx; rewrite !elem_of_cons, elem_of_nil in Hx;
    repeat match type of Hx with _ \/ _ => destruct Hx as [Hx|Hx] | False => destruct Hx end; subst x; cbn in Hf; injection Hf as <-; lia.
Qed.
Lemma ie_which_own f : (f <= 4)%N -> ie_which f = None.
Proof. intros Hf. unfold ie_which. replace (f - 100)%N with 0%N by lia. done. Qed.
Lemma ie_apart eager : apart ie_loaders (ie_env eager) ie_graph.
Proof.
  split.
  - intros k k' Hk. assert (ie_which (ie_code (inr k)) = ie_which (ie_code (inr k'))) as Hw by (by f_equal). rewrite !ie_which_code in Hw. congruence.
  - intros n k Hk. assert (ie_which (ie_code (inl n)) = ie_which (ie_code (inr k))) as Hw by (by f_equal). by rewrite !ie_which_code in Hw.
  - intros f Hf Hi. pose proof (ie_which_own f (ie_own f Hf)) as Hw. destruct Hi as [[n ->]|[k ->]]; cbn in Hw; by rewrite ie_which_code in Hw.
Qed.
Lemma ie_user eager m c : own_loader (ie_env eager) ie_graph (c_func c) ->
  exists r, ret_val (e_oracle (ie_env eager) m c) = Some r /\ answers ie_data c r.
Proof.
  intros Hf. pose proof (ie_which_own _ (ie_own _ Hf)) as Hw. cbn [e_oracle ie_env]. rewrite Hw.
  exact (oracle_of_serves (Env [] (fun _ => oracle_of ie_data) (fun _ => false) (fun _ _ _ _ => Err KeyError) eager) ie_data (fun _ _ => eq_refl) m c).
Qed.
Lemma ie_nodes gn name it : node_of ie_graph gn -> find_field gn name = Some it ->
  it ∈ gn_fields (nth 0 (g_items ie_graph) (GNode None [])) /\ gn = nth 0 (g_items ie_graph) (GNode None []) \/
  it ∈ gn_fields (nth 1 (g_items ie_graph) (GNode None [])) /\ gn = g_root ie_graph.
Proof.
  intros Hn [Hx _]%find_field_elem. destruct Hn as [->|[m Hm]].
  - right. split; [|done]. exact Hx.
  - apply find_node_elem in Hm as [Hm Hn]. unfold ie_graph, PropIntrospect.ex_query in Hm. cbn [g_items] in Hm. rewrite !elem_of_cons, elem_of_nil in Hm.
    destruct Hm as [->|[->|[]]]; [|done]. left. split; [exact Hx|done].
Qed.
Ltac ie_members H := unfold ie_graph, PropIntrospect.ex_query in H; cbn [g_items nth gn_fields] in H; rewrite !elem_of_cons, elem_of_nil in H;
  repeat match type of H with _ \/ _ => destruct H as [H|H] | False => destruct H end.
Lemma ie_data_ok eager : data_ok (ie_env eager) ie_data ie_graph.
Proof.
  split; [|done]. intros gn name l a o Hn Hf. destruct (ie_nodes _ _ _ Hn Hf) as [[Hx _]|[Hx _]]; ie_members Hx; try discriminate Hx.
  injection Hx as ->. cbn. by eexists.
Qed.
Definition ie_parts (f : gfield) : bool := false.
Lemma ie_wf eager : wf_graph (ie_env eager) ie_parts ie_graph.
Proof.
  split.
  - intros gn name it Hn Hf. pose proof (find_field_elem _ _ _ Hf) as [_ <-]. destruct (ie_nodes _ _ _ Hn Hf) as [[Hx _]|[Hx _]]; ie_members Hx; subst it;
      apply (bool_decide_unpack _); vm_compute; exact I.
  - vm_compute. reflexivity.
  - intros gn name l Hn Hf. destruct (ie_nodes _ _ _ Hn Hf) as [[Hx _]|[Hx _]]; ie_members Hx; try discriminate Hx. injection Hx as ->.
    split; [eexists; vm_compute; reflexivity|done].
  - intros gn name f sg rq pr Hn Hf Hc. destruct (ie_nodes _ _ _ Hn Hf) as [[Hx _]|[Hx _]]; ie_members Hx; try discriminate Hx; injection Hx as ->; discriminate Hc.
Qed.
Lemma ie_wf_env eager : wf_env (ie_env eager) ie_parts.
Proof. split; [|done]. intros i G node Hl. done. Qed.
Lemma ie_reads eager : reads_by_name (ie_env eager).
Proof. split; [by intros|done]. Qed.
Lemma ie_distinct : distinct_options ie_graph.
Proof.
  intros gn name it Hn Hf. destruct (ie_nodes _ _ _ Hn Hf) as [[Hx _]|[Hx _]]; ie_members Hx; subst it; apply (bool_decide_unpack _); vm_compute; exact I.
Qed.
Lemma ie_respects : respects_options ie_data.
Proof.
  split.
  - intros f i n o o' Ho. done.
  - intros f a o o' Ho. cbn [d_link ie_data]. destruct (ie_which f) as [[x|k]|]; try done. destruct a; [done|].
    pose proof (same_opts_get o o' (s "name") Ho) as Hg.
    assert (link_root ie_schema k (Some o) = link_root ie_schema k (Some o') \/ (exists v w, got (Some v) (Some w) /\ 
      link_root ie_schema k (Some o) = match v with VStr n => Ok (vmaybe (type_link ie_schema n)) | _ => Ok VNothing end /\
      link_root ie_schema k (Some o') = match w with VStr n => Ok (vmaybe (type_link ie_schema n)) | _ => Ok VNothing end)) as [->|(v & w & Hvw & -> & ->)].
    { unfold link_root. destruct k as [|p]; [by left|]. destruct (dget (s "name") (opt_dict o)) as [v|], (dget (s "name") (opt_dict o')) as [w|]; try done.
      + do 5 (destruct p as [p|p|]; try (by left)). right. exists v, w. done.
      + left. do 5 (destruct p as [p|p|]; try done). }
    + done.
    + cbn in Hvw. destruct (same_no_dict v w Hvw) as [Hb He].
      destruct (decide (no_dict v = true)) as [Hd|Hd]; [by rewrite (He Hd)|]. pose proof Hd as Hd'. rewrite Hb in Hd'.
      destruct v; try (by destruct Hd); destruct w; try (by destruct Hd'); done.
Qed.
(** Nothing raises the exception by which the model says that its fuel ended *)
Definition fueled {A} (r : res A) : Prop := r <> Err OutOfFuel.
Lemma fueled_mapR {A B} (f : A -> res B) l : (forall a, a ∈ l -> fueled (f a)) -> fueled (mapR f l).
Proof.
  unfold fueled. induction l as [|a l IH]; [done|]. intros Hl. cbn [mapR]. pose proof (Hl a ltac:(left)) as Ha. destruct (f a); [|congruence].
  assert (mapR f l <> Err OutOfFuel) as Hm by (apply IH; intros; apply Hl; by right). destruct (mapR f l); [done|congruence].
Qed.
Lemma fueled_vlist {A} (enc : A -> val) r : fueled r -> fueled (vlist enc r).
Proof. unfold fueled, vlist. destruct r; congruence. Qed.
Lemma fueled_vone {A} (enc : A -> val) r : fueled r -> fueled (vone enc r).
Proof. unfold fueled, vone. destruct r; congruence. Qed.
Lemma fueled_ident dt b t : fueled (type_ident dt b t).
Proof.
  unfold fueled. induction t using ty_ind'; cbn [type_ident]; try done.
  - destruct b; [|done]. by destruct (bool_decide _).
  - destruct (type_ident dt b t) as [[]|]; congruence.
  - destruct (type_ident dt b t) as [[]|]; congruence.
Qed.
Lemma fueled_data S n : fueled (data_fields S n).
Proof. unfold fueled, data_fields. destruct (dget n _) as [[]|]; done. Qed.
Lemma fueled_field S f : fueled (schema_field S f).
Proof. unfold fueled, schema_field. destruct (dget f.1 _); [|done]. by destruct (find_field _ _). Qed.
Lemma fueled_fields S t : fueled (type_fields S t).
Proof.
  unfold fueled, type_fields. destruct t; try done. destruct (dget n _) as [gn|].
  - by destruct (map _ _).
  - pose proof (fueled_data S n) as Hd. destruct (data_fields S n) as [fs|]; [by destruct fs|]. unfold fueled in Hd. congruence.
Qed.
Lemma fueled_field_type S f : fueled (field_type S f).
Proof.
  unfold fueled, field_type. destruct (dget f.1 _).
  - pose proof (fueled_field S f) as Hd. destruct (schema_field S f); [apply fueled_ident|]. unfold fueled in Hd. congruence.
  - pose proof (fueled_data S f.1) as Hd. destruct (data_fields S f.1); [|unfold fueled in Hd; congruence]. destruct (dget f.2 _); [apply fueled_ident|done].
Qed.
Lemma fueled_field_args S f : fueled (field_args S f).
Proof.
  unfold fueled, field_args. destruct (dget f.1 _); [|done].
  pose proof (fueled_field S f) as Hd. destruct (schema_field S f); [done|]. unfold fueled in Hd. congruence.
Qed.
Lemma fueled_inputs S t : fueled (input_fields S t).
Proof.
  unfold fueled, input_fields. destruct t; try done. pose proof (fueled_data S n) as Hd. destruct (data_fields S n); [done|]. unfold fueled in Hd. congruence.
Qed.
Lemma fueled_arg_type S a : fueled (arg_type S a).
Proof.
  unfold fueled, arg_type. destruct a as [node field name|n k|n]; [| |done].
  - pose proof (fueled_field S (node, field)) as Hd. destruct (schema_field S _); [|unfold fueled in Hd; congruence].
    destruct (dget name _) as [o|]; [|done]. destruct (go_type o); [apply fueled_ident|done].
  - pose proof (fueled_data S n) as Hd. destruct (data_fields S n); [|unfold fueled in Hd; congruence]. destruct (dget k _); [apply fueled_ident|done].
Qed.
Lemma fueled_info S k i : match row_of S ie_texts k i with Ok row => forall n, fueled (row n) | Err e => e <> OutOfFuel end.
Proof.
  assert (forall d : list (str * val), forall n, fueled (from_opt KeyError (dget n d))) as Hs by (intros d n; unfold fueled; by destruct (dget n d)).
  unfold row_of. destruct k as [|p]; [done|]. destruct p as [p|p|]; try (destruct p as [p|p|]; try (destruct p as [p|p|]; try (destruct p as [p|p|]; try done))); try done.
  - unfold directive_value_info. destruct (dec_t i) as [[]|]; try done; apply Hs.
  - unfold input_value_info. destruct (dec_a i) as [[node field name|n k|n]|]; [| | |done].
    + assert (fueled (arg_option S node field name)) as Hd.
      { unfold arg_option. pose proof (fueled_field S (node, field)) as Hd. destruct (schema_field S _); [|unfold fueled in *; congruence].
        unfold fueled. by destruct (dget name _). }
      destruct (arg_option S node field name) as [o|]; [|unfold fueled in Hd; congruence]. destruct (go_default o); cbn [tx_json ie_texts]; cbn beta iota; intros ?; apply Hs.
    + apply Hs.
    + unfold arg_descr. repeat destruct (bool_decide _); try done; apply Hs.
  - unfold field_info. destruct (dec_f i) as [f|]; [|done]. destruct (in_nodes S f.1); [|apply Hs].
    pose proof (fueled_field S f) as Hd. destruct (schema_field S f); [apply Hs|]. unfold fueled in Hd. congruence.
  - unfold type_info. destruct (dec_t i) as [[]|]; done.
Qed.
Lemma fueled_link S k i : fueled (link_of S k i).
Proof.
  unfold link_of. destruct k as [|p]; [done|].
  destruct p as [p|p|]; try (destruct p as [p|p|]; try (destruct p as [p|p|]; try (destruct p as [p|p|]; try done))); try done;
    try (destruct (dec_t i); [|done]); try (destruct (dec_f i); [|done]); try (destruct (dec_a i); [|done]);
    first [apply fueled_vlist|apply fueled_vone]; auto using fueled_fields, fueled_inputs, fueled_field_args, fueled_field_type, fueled_arg_type.
Qed.
Lemma fueled_root S k o : fueled (link_root S k o).
Proof.
  unfold link_root. destruct k as [|p]; [done|]. do 5 (destruct p as [p|p|]; try done).
  destruct o as [d|]; [|done]. destruct (dget _ _) as [[]|]; done.
Qed.
Lemma ie_fuel eager : no_fuel_exn (ie_env eager).
Proof.
  split; [|done]. intros n c. cbn [e_oracle ie_env]. destruct (ie_which (c_func c)) as [[x|k]|].
  - by destruct (c_args c).
  - assert (fueled (intro_call ie_schema ie_texts k (c_args c))) as Hf.
    { unfold intro_call. destruct (c_args c) as [qfs [ids|]|[[l|v]|] o].
      - apply fueled_vlist, fueled_mapR. intros i _. pose proof (fueled_info ie_schema k i) as Hi. destruct (row_of _ _ k i); [|unfold fueled; congruence].
        apply fueled_vlist, fueled_mapR. intros q _. apply Hi.
      - unfold fueled. destruct k as [|p]; [done|]. do 4 (destruct p as [p|p|]; try done).
      - destruct (takes_options k o); [|done]. apply fueled_vlist, fueled_mapR. intros v _. destruct v; try done. apply fueled_link.
      - done.
      - destruct (takes_options k o); [apply fueled_root|done]. }
    unfold fueled in Hf. destruct (intro_call _ _ _ _); cbn [outcome_of]; congruence.
  - unfold oracle_of. destruct (c_args c) as [qfs [ids|]|[[l|v]|] o]; done.
Qed.
Lemma ie_names : distinct_names ie_schema.
Proof.
  assert (named_nodes ie_schema = [(s "user", nth 0 (g_items ie_graph) (GNode None [])); (s "Query", g_root ie_graph);
    (s "Mutation", GNode None [GL (GLink (s "addUser") One (s "user") 4 None [])])]) as En by (vm_compute; reflexivity).
  split.
  - apply (bool_decide_unpack _); vm_compute; exact I.
  - intros n t Hin. apply elem_of_list_singleton in Hin. injection Hin as -> _. apply (bool_decide_unpack _); vm_compute; exact I.
  - intros n gn Hin. rewrite En in Hin. rewrite !elem_of_cons, elem_of_nil in Hin. destruct Hin as [[= -> ->]|[[= -> ->]|[[= -> ->]|[]]]];
      (split; [apply (bool_decide_unpack _); vm_compute; exact I|]; intros x Hx; unfold ie_graph, PropIntrospect.ex_query in Hx; cbn in Hx;
       rewrite ?elem_of_cons, ?elem_of_nil in Hx; repeat match type of Hx with _ \/ _ => destruct Hx as [Hx|Hx] | False => destruct Hx end; subst x;
       apply (bool_decide_unpack _); vm_compute; exact I).
Qed.
Lemma ie_nodes_named n gn : (n, gn) ∈ named_nodes ie_schema -> forall x, x ∈ gn_fields gn ->
  gi_type x ∈ [TInt; TOpt TStr; TCall []; TSeq (TRef (s "user")); TSeq (TRef (s "Filter")); TRef (s "user")] /\
  forall o, o ∈ gi_options x -> o = ex_opt (s "filter") (Some (TOpt (TRef (s "Filter")))).
Proof.
  assert (named_nodes ie_schema = [(s "user", nth 0 (g_items ie_graph) (GNode None [])); (s "Query", g_root ie_graph);
    (s "Mutation", GNode None [GL (GLink (s "addUser") One (s "user") 4 None [])])]) as En by (vm_compute; reflexivity).
  intros Hin x Hx. rewrite En in Hin. rewrite !elem_of_cons, elem_of_nil in Hin. destruct Hin as [[= -> ->]|[[= -> ->]|[[= -> ->]|[]]]];
    unfold ie_graph, PropIntrospect.ex_query in Hx; cbn in Hx;
       rewrite ?elem_of_cons, ?elem_of_nil in Hx; repeat match type of Hx with _ \/ _ => destruct Hx as [Hx|Hx] | False => destruct Hx end; subst x;
       (split; [apply (bool_decide_unpack _); vm_compute; exact I|]; intros o Ho; cbn in Ho; rewrite ?elem_of_cons, elem_of_nil in Ho; tauto).
Qed.
Lemma ie_deep : deep_enough ie_schema 7.
Proof.
  split; [lia|]. intros t Ht. destruct Ht as [n gn x Hin Hx _|n gn x o t Hin Hx _ Ho Ht|n fs k t b Hin Hk].
  - destruct (ie_nodes_named n gn Hin x Hx) as [Hty _]. rewrite !elem_of_cons, elem_of_nil in Hty.
    destruct Hty as [->|[->|[->|[->|[->|[->|[]]]]]]]; cbn; lia.
  - destruct (ie_nodes_named n gn Hin x Hx) as [_ Hop]. rewrite (Hop o Ho) in Ht. injection Ht as <-. cbn. lia.
  - apply elem_of_list_singleton in Hin. injection Hin as _ ->. rewrite !elem_of_cons, elem_of_nil in Hk.
    destruct Hk as [[= _ ->]|[[= _ ->]|[]]]; destruct b; cbn; lia.
Qed.
Lemma ie_json : json_defaults ie_schema ie_texts.
Proof. intros n gn x o _ _ _ _. by eexists. Qed.
Definition ie_added : graph := match add_introspection ie_loaders ie_graph with Ok g => g | Err _ => ie_graph end.
Lemma ie_add : add_introspection ie_loaders ie_graph = Ok ie_added.
Proof.
  unfold ie_added. assert (is_ok (add_introspection ie_loaders ie_graph)) as [g Hg]; [|by rewrite Hg].
  eexists. vm_compute. reflexivity.
Qed.
(** What is read for this schema *)
Definition ie_read : c_schema :=
  let str_ := GName (s "String") in let int := GNonNull (GName (s "Int")) in let users := GNonNull (GList (GNonNull (GName (s "user")))) in
  let field n args t := CField (s n) (VStr (s "field " ++ s n)) args t (VBool false) VNone in
  let member n t := CField (s n) VNone [] t (VBool false) VNone in
  let obj n fs := CType (s "OBJECT") (s n) (VStr (s "about " ++ s n)) fs [] [] [] [] in
  let directive n c ca := CDirective (s n) (VStr (s c)) (VList (map VStr [s "FIELD"; s "FRAGMENT_SPREAD"; s "INLINE_FRAGMENT"]))
                            [CInput (s "if") (VStr (s ca)) (GNonNull (GName (s "Boolean"))) VNone] in
  CSchema (s "Query") (Some (s "Mutation")) None
    (map (fun n => CType (s "SCALAR") n VNone [] [] [] [] []) [s "String"; s "Int"; s "Boolean"; s "Float"; s "Any"] ++
     [obj "user"%string [field "id"%string [] int; field "name"%string [] str_];
      obj "Query"%string [field "users"%string [CInput (s "filter") (VStr (s "option filter")) (GName (s "IOFilter")) VNone] users;
                          field "stats"%string [] (GNonNull (GList (GNonNull (GName (s "Filter")))))];
      obj "Mutation"%string [field "addUser"%string [] (GNonNull (GName (s "user")))];
      CType (s "OBJECT") (s "Filter") VNone [member "name"%string (GNonNull str_); member "ages"%string (GList int)] [] [] [] [];
      CType (s "INPUT_OBJECT") (s "IOFilter") VNone [] [CInput (s "name") VNone (GNonNull str_) VNone; CInput (s "ages") VNone (GList int) VNone] [] [] []])
    [directive "skip"%string "Directs the executor to skip this field or fragment when the `if` argument is true."%string "Skipped when true."%string;
     directive "include"%string "Directs the executor to include this field or fragment only when the `if` argument is true."%string "Included when true."%string].
(** Every execution, on whatever executor, gives this. *)
Theorem C57_example `{Hasher} eager fuel :
  max_work (ie_env eager) ie_added (standard_query 7) < fuel ->
  (exists sched r, execute (ie_env eager) fuel ie_added (standard_query 7) sched r) /\
  forall sched r, execute (ie_env eager) fuel ie_added (standard_query 7) sched r ->
  exists idx t, r = Ok (idx, standard_query 7) /\ denormalize ie_added idx (standard_query 7) = Ok t /\ r_schema 7 t = Some ie_read.
Proof.
  assert (ie_read = e_schema ie_schema ie_texts) as -> by (vm_compute; reflexivity).
  apply (C57_client_reads_schema ie_loaders ie_schema ie_texts (ie_env eager) ie_data ie_parts ie_graph ie_added 7).
  - apply C44_example.
  - apply ie_json.
  - apply ie_names.
  - apply ie_deep.
  - apply ie_wf_env.
  - apply ie_wf.
  - apply ie_distinct.
  - apply ie_add.
  - apply ie_apart.
  - apply ie_runs.
  - apply ie_describes.
  - apply ie_user.
  - apply ie_data_ok.
  - by intros sg G node Hl.
  - apply ie_respects.
  - apply ie_reads.
  - apply ie_fuel.
Qed.

(** C45, C56: [type_name_field_func] gives one value per row whatever the number of fields, so asking for the name of the
    type under two aliases is valid, but raises an exception in the engine. *)
Definition ie_twice : qnode := QN [QF (s "__typename") None (Some (s "a")); QF (s "__typename") None (Some (s "b"))] false.
Local Existing Instance ex_hasher.
Lemma fails_by `{Hasher} E fuel g q sched1 done e :
  match start E g q with
  | Ok x => match progress (run_cb E) fuel done x with Err e' => bool_decide (e' = e) | Ok _ => false end &&
            bool_decide (done <> [] /\ NoDup done /\ Forall (fun f => f ∈ q_futures x.2) done) && bool_decide (sched1 = [done])
  | Err _ => false
  end = true -> execute E fuel g q sched1 (Err e).
Proof.
  destruct (start E g q) as [x|] eqn:Ex; [|done]. destruct (progress _ _ _ _) as [|e'] eqn:Ep; [done|].
  rewrite !andb_true_iff, !bool_decide_eq_true. intros [[-> (H1 & H2 & H3)] ->]. eapply exec_err; [exact Ex|].
  apply ex_fail; [done|done| |exact Ep]. by apply Forall_forall.
Qed.
Theorem C45_typename_twice_refuted : exists L S T E D g g' q k fuel sched,
  coherent S /\ sc_query S = g /\ add_introspection L g = Ok g' /\ runs_introspection S T L E /\ describes L S T D /\ apart L E g /\
  (forall m c, own_loader E g (c_func c) -> exists r, ret_val (e_oracle E m c) = Some r /\ answers D c r) /\
  validate k g' q = Ok [] /\ execute E fuel g' q sched (Err TypeError).
Proof.
  exists ie_loaders, ie_schema, ie_texts, (ie_env true), ie_data, ie_graph, ie_added, ie_twice, 10, 50, [[0]].
  split; [apply C44_example|]. split; [done|]. split; [apply ie_add|]. split; [apply ie_runs|]. split; [apply ie_describes|]. split; [apply ie_apart|].
  split; [apply ie_user|]. split; [vm_compute; reflexivity|]. apply (fails_by _ _ _ _ _ [0]). vm_compute. reflexivity.
Qed.
