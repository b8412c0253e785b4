(** Proofs about the task queue. *)
From stdpp Require Import relations.
From Verif Require Import Base Queue QueueSpec.

(** ** The executor's loop as a transition system *)
Inductive phase (C : Type) : Type :=
| PIdle
| PF (cur : option (nat * list C)) (done : list nat)
| PLoop
| PT (cur : option (nat * list C)) (tss : list nat).
Arguments PIdle {C}. Arguments PF {C}. Arguments PLoop {C}. Arguments PT {C}.

Section steps.
  Context {C W : Type} (run : C -> W * queue C -> res (W * queue C)).
  Notation st := (W * queue C)%type.
  Notation cfg := (st * phase C)%type.

  Inductive qstep : cfg -> cfg -> Prop :=
  | qs_start x done :
      done <> [] -> NoDup done -> (forall f, f ∈ done -> f ∈ q_futures x.2) ->
      qstep (x, PIdle) ((x.1, q_difference done x.2), PF None done)
  | qs_popf x f d cs q :
      q_pop (KF f) (q_emit (EvDone f) x.2) = (cs, q) ->
      qstep (x, PF None (f :: d)) ((x.1, q), PF (Some (f, cs)) d)
  | qs_firef x f c cs d y :
      fire run (KF f) x c = Ok y ->
      qstep (x, PF (Some (f, c :: cs)) d) (y, PF (Some (f, cs)) d)
  | qs_endf x f d : qstep (x, PF (Some (f, [])) d) (x, PF None d)
  | qs_loop x : qstep (x, PF None []) (x, PLoop)
  | qs_sets x : q_completed x.2 <> [] -> qstep (x, PLoop) (x, PT None (q_completed x.2))
  | qs_popt x t ts cs q :
      q_pop (KT t) x.2 = (cs, q) -> qstep (x, PT None (t :: ts)) ((x.1, q), PT (Some (t, cs)) ts)
  | qs_firet x t c cs ts y :
      fire run (KT t) x c = Ok y -> qstep (x, PT (Some (t, c :: cs)) ts) (y, PT (Some (t, cs)) ts)
  | qs_endt x t ts : qstep (x, PT (Some (t, [])) ts) ((x.1, q_complete t x.2), PT None ts)
  | qs_again x : qstep (x, PT None []) (x, PLoop)
  | qs_idle x : q_completed x.2 = [] -> qstep (x, PLoop) (x, PIdle).

  (** A callback raises *)
  Inductive qfail : cfg -> exn -> Prop :=
  | qf_f x f c cs d e : fire run (KF f) x c = Err e -> qfail (x, PF (Some (f, c :: cs)) d) e
  | qf_t x t c cs ts e : fire run (KT t) x c = Err e -> qfail (x, PT (Some (t, c :: cs)) ts) e.

  Lemma fold_firef f cs d x r :
    foldR (fire run (KF f)) x cs = r ->
    match r with
    | Ok y => rtc qstep (x, PF (Some (f, cs)) d) (y, PF (Some (f, [])) d)
    | Err e => exists z, rtc qstep (x, PF (Some (f, cs)) d) z /\ qfail z e
    end.
  Proof.
    revert x r; induction cs as [|c cs IH]; intros x r; simpl.
    - intros <-. apply rtc_refl.
    - destruct (fire run (KF f) x c) as [y|e] eqn:Ef.
      + intros Hr. specialize (IH _ _ Hr). destruct r.
        * eapply rtc_l; [by apply qs_firef | done].
        * destruct IH as (z & Hz & ?). exists z. split; [|done]. eapply rtc_l; [by apply qs_firef | done].
      + intros <-. eexists; split; [apply rtc_refl | by constructor].
  Qed.
  Lemma fold_firet t cs ts x r :
    foldR (fire run (KT t)) x cs = r ->
    match r with
    | Ok y => rtc qstep (x, PT (Some (t, cs)) ts) (y, PT (Some (t, [])) ts)
    | Err e => exists z, rtc qstep (x, PT (Some (t, cs)) ts) z /\ qfail z e
    end.
  Proof.
    revert x r; induction cs as [|c cs IH]; intros x r; simpl.
    - intros <-. apply rtc_refl.
    - destruct (fire run (KT t) x c) as [y|e] eqn:Ef.
      + intros Hr. specialize (IH _ _ Hr). destruct r.
        * eapply rtc_l; [by apply qs_firet | done].
        * destruct IH as (z & Hz & ?). exists z. split; [|done]. eapply rtc_l; [by apply qs_firet | done].
      + intros <-. eexists; split; [apply rtc_refl | by constructor].
  Qed.

  Lemma fold_fut done x r :
    foldR (fire_fut run) x done = r ->
    match r with
    | Ok y => rtc qstep (x, PF None done) (y, PF None [])
    | Err e => exists z, rtc qstep (x, PF None done) z /\ qfail z e
    end.
  Proof.
    revert x r; induction done as [|f d IH]; intros x r; simpl.
    - intros <-. apply rtc_refl.
    - destruct (fire_fut run x f) as [y|e] eqn:Ef.
      + unfold fire_fut in Ef. destruct (q_pop _ _) as [cs q] eqn:Ep.
        pose proof (fold_firef f cs d _ _ Ef) as H1. simpl in H1.
        assert (rtc qstep (x, PF None (f :: d)) (y, PF None d)) as H2.
        { eapply rtc_l; [by eapply qs_popf|]. etrans; [exact H1|]. apply rtc_once, qs_endf. }
        intros Hr. specialize (IH _ _ Hr). destruct r.
        * by etrans.
        * destruct IH as (z & Hz & ?). exists z. split; [by etrans|done].
      + intros <-. unfold fire_fut in Ef. destruct (q_pop _ _) as [cs q] eqn:Ep.
        pose proof (fold_firef f cs d _ _ Ef) as (z & Hz & Hq). exists z. split; [|done].
        eapply rtc_l; [by eapply qs_popf|]. done.
  Qed.

  Lemma fold_ts ts x r :
    foldR (fire_ts run) x ts = r ->
    match r with
    | Ok y => rtc qstep (x, PT None ts) (y, PT None [])
    | Err e => exists z, rtc qstep (x, PT None ts) z /\ qfail z e
    end.
  Proof.
    revert x r; induction ts as [|t ts IH]; intros x r; simpl.
    - intros <-. apply rtc_refl.
    - destruct (fire_ts run x t) as [y|e] eqn:Ef; unfold fire_ts in Ef;
        destruct (q_pop _ _) as [cs q] eqn:Ep;
        destruct (foldR (fire run (KT t)) (x.1, q) cs) as [y'|e'] eqn:Ey; simplify_eq/=.
      + pose proof (fold_firet t cs ts _ _ Ey) as H1. simpl in H1.
        set (y := (y'.1, q_complete t y'.2)) in *.
        assert (rtc qstep (x, PT None (t :: ts)) (y, PT None ts)) as H2.
        { eapply rtc_l; [by eapply qs_popt|]. etrans; [exact H1|]. apply rtc_once, qs_endt. }
        intros Hr. specialize (IH _ _ Hr). destruct r.
        * by etrans.
        * destruct IH as (z & Hz & ?). exists z. split; [by etrans|done].
      + intros <-.
        pose proof (fold_firet t cs ts _ _ Ey) as (z & Hz & Hq). exists z. split; [|done].
        eapply rtc_l; [by eapply qs_popt|]. done.
  Qed.

  Lemma loop_steps fuel x r :
    complete_loop run fuel x = r ->
    match r with
    | Ok y => rtc qstep (x, PLoop) (y, PIdle)
    | Err e => (exists z, rtc qstep (x, PLoop) z /\ qfail z e) \/ e = OutOfFuel
    end.
  Proof.
    revert x r; induction fuel as [|k IH]; intros x r; simpl;
      destruct (q_completed x.2) as [|t ts] eqn:Ec.
    - intros <-. by apply rtc_once, qs_idle.
    - intros <-. by right.
    - intros <-. by apply rtc_once, qs_idle.
    - assert (rtc qstep (x, PLoop) (x, PT None (t :: ts))) as H0.
      { rewrite <-Ec. apply rtc_once, qs_sets. by rewrite Ec. }
      destruct (foldR (fire_ts run) x (t :: ts)) as [y|e] eqn:Ey; simpl in Ey; rewrite Ey.
      + pose proof (fold_ts (t :: ts) x _ Ey) as H1. simpl in H1.
        assert (rtc qstep (x, PLoop) (y, PLoop)) as H2.
        { etrans; [exact H0|]. etrans; [exact H1|]. apply rtc_once, qs_again. }
        intros Hr. specialize (IH _ _ Hr). destruct r.
        * by etrans.
        * destruct IH as [(z & Hz & ?)| ->]; [left|by right]. exists z. split; [by etrans|done].
      + intros <-. left. pose proof (fold_ts (t :: ts) x _ Ey) as (z & Hz & Hq).
        exists z. split; [by etrans|done].
  Qed.

  Lemma progress_steps fuel done x r :
    done <> [] -> NoDup done -> (forall f, f ∈ done -> f ∈ q_futures x.2) ->
    progress run fuel done x = r ->
    match r with
    | Ok y => rtc qstep (x, PIdle) (y, PIdle)
    | Err e => (exists z, rtc qstep (x, PIdle) z /\ qfail z e) \/ e = OutOfFuel
    end.
  Proof.
    intros H1 H2 H3. unfold progress.
    assert (qstep (x, PIdle) ((x.1, q_difference done x.2), PF None done)) as Hs by by constructor.
    destruct (foldR (fire_fut run) _ done) as [y|e] eqn:Ey.
    - pose proof (fold_fut _ _ _ Ey) as Hf. simpl in Hf.
      assert (rtc qstep (x, PIdle) (y, PLoop)) as Hl.
      { eapply rtc_l; [done|]. etrans; [done|]. apply rtc_once, qs_loop. }
      intros Hr. pose proof (loop_steps _ _ _ Hr) as H4. destruct r.
      + by etrans.
      + destruct H4 as [(z & Hz & ?)| ->]; [left|by right]. exists z. split; [by etrans|done].
    - intros <-. left. pose proof (fold_fut _ _ _ Ey) as (z & Hz & Hq).
      exists z. split; [by eapply rtc_l|done].
  Qed.

  Lemma executes_steps fuel sched x r :
    executes run fuel sched x r ->
    match r with
    | Ok y => rtc qstep (x, PIdle) (y, PIdle) /\ q_futures y.2 = []
    | Err e => (exists z, rtc qstep (x, PIdle) z /\ qfail z e) \/ e = OutOfFuel
    end.
  Proof.
    induction 1 as [x Hx|done x e H1 H2 H3 Hp|done sched x y r H1 H2 H3 Hp He IH].
    - split; [apply rtc_refl | done].
    - by pose proof (progress_steps _ _ _ _ H1 H2 H3 Hp).
    - pose proof (progress_steps _ _ _ _ H1 H2 H3 Hp) as Hs. simpl in Hs. destruct r.
      + destruct IH as [IH ?]. split; [by etrans|done].
      + destruct IH as [(z & Hz & ?)| ->]; [left|by right]. exists z. split; [by etrans|done].
  Qed.

  Lemma rtc_inv (I : cfg -> Prop) :
    (forall a b, I a -> qstep a b -> I b) -> forall a b, rtc qstep a b -> I a -> I b.
  Proof. intros Hp a b Hr. induction Hr; eauto. Qed.
End steps.

(** ** Every callback is either pending or was fired, once, in order *)
Section once.
  Context {C : Type}.
  Implicit Types (q : queue C).
  Lemma added_app k t1 t2 : added (C:=C) k (t1 ++ t2) = added k t1 ++ added k t2.
  Proof. unfold added. by rewrite omap_app. Qed.
  Lemma fired_app k t1 t2 : fired (C:=C) k (t1 ++ t2) = fired k t1 ++ fired k t2.
  Proof. unfold fired. by rewrite omap_app. Qed.

  Lemma pending_add k k' c q :
    pending k (q_add k' c q) = pending k q ++ (if decide (k = k') then [c] else []).
  Proof.
    unfold pending, q_add, dappend; simpl. rewrite dget_dset.
    destruct (decide (k = k')) as [->|]; [|by rewrite app_nil_r].
    by destruct (dget k' (q_cbs q)).
  Qed.

  (** adds = fires ++ firing ++ pending *)
  Definition once_inv (q : queue C) (k0 : option (ckey * list C)) : Prop :=
    NoDup (dkeys (q_cbs q)) /\
    forall k, added k (q_trace q) =
      fired k (q_trace q) ++ match k0 with Some (k', cs) => if decide (k = k') then cs else [] | None => [] end
      ++ pending k q.

  Lemma once_op q o q1 k0 : once_inv q k0 -> apply_op q o = Ok q1 -> once_inv q1 k0.
  Proof.
    intros [Hn Hi] Ho. destruct o as [t|p|k' c]; simpl in Ho.
    - unfold q_submit in Ho. destruct (dget t (q_futs q)); simplify_eq/=. split; [done|].
      intros k; simpl. rewrite added_app, fired_app. simpl. rewrite !app_nil_r. apply Hi.
    - unfold q_fork in Ho. destruct p as [p|]; [destruct (dget p _)|]; simplify_eq/=;
        (split; [done|]; intros k; simpl; rewrite added_app, fired_app; simpl; rewrite !app_nil_r; apply Hi).
    - simplify_eq. split; [simpl; unfold dappend; by apply NoDup_dset|].
      intros k. simpl q_trace. rewrite added_app, fired_app, pending_add, Hi. simpl.
      unfold added, fired; simpl. rewrite app_nil_r. rewrite <-!app_assoc.
      by destruct (decide (k = k')).
  Qed.
  Lemma once_uses A q q' k0 : uses A q q' -> once_inv q k0 -> once_inv q' k0.
  Proof. induction 1; eauto using once_op. Qed.

  Lemma once_emit q e k0 :
    (match e with EvAdd _ _ | EvFire _ _ => False | _ => True end) ->
    once_inv q k0 -> once_inv (q_emit e q) k0.
  Proof.
    intros He [Hn Hi]. split; [done|]. intros k. simpl. rewrite added_app, fired_app.
    destruct e; try done; unfold added, fired; simpl; rewrite !app_nil_r; apply Hi.
  Qed.
  Lemma once_pop q k cs q' : once_inv q None -> q_pop k q = (cs, q') -> once_inv q' (Some (k, cs)).
  Proof.
    intros [Hn Hi] Hp. unfold q_pop in Hp. simplify_eq. split; [simpl; by apply NoDup_ddel|].
    intros k'. simpl q_trace. rewrite Hi. simpl. f_equal. unfold pending; simpl.
    destruct (decide (k' = k)) as [->|].
    - rewrite dget_ddel_eq by done. by rewrite app_nil_r.
    - by rewrite dget_ddel_ne.
  Qed.
  Lemma once_fire q k c cs : once_inv q (Some (k, c :: cs)) -> once_inv (q_emit (EvFire k c) q) (Some (k, cs)).
  Proof.
    intros [Hn Hi]. split; [done|]. intros k'. simpl. rewrite added_app, fired_app, Hi.
    unfold added, fired; simpl. rewrite app_nil_r, <-app_assoc. f_equal.
    unfold pending; simpl. by destruct (decide (k' = k)).
  Qed.
  Lemma once_empty : once_inv (@q_empty C) None.
  Proof. split; [constructor | done]. Qed.
  Lemma once_end q k : once_inv q (Some (k, [])) -> once_inv q None.
  Proof. intros [Hn Hi]. split; [done|]. intros k'. rewrite Hi. by destruct (decide _). Qed.

  Definition phase_cur (p : phase C) : option (ckey * list C) :=
    match p with
    | PF (Some (f, cs)) _ => Some (KF f, cs)
    | PT (Some (t, cs)) _ => Some (KT t, cs)
    | _ => None
    end.

  Context {W : Type} (run : C -> W * queue C -> res (W * queue C)).
  Lemma once_step a b :
    api_program run -> once_inv a.1.2 (phase_cur a.2) -> qstep run a b -> once_inv b.1.2 (phase_cur b.2).
  Proof.
    intros Hapi Hi Hs. destruct Hs; simpl in *; try done.
    - eapply once_pop; [|done]. by apply once_emit.
    - apply once_fire in Hi. eapply once_uses; [|exact Hi]. eapply (Hapi c (x.1, _)); done.
    - by eapply once_end.
    - by eapply once_pop.
    - apply once_fire in Hi. eapply once_uses; [|exact Hi]. eapply (Hapi c (x.1, _)); done.
    - apply once_end in Hi. destruct Hi as [Hn Hi]. split; [done|].
      intros k; simpl. rewrite added_app, fired_app. unfold added, fired; simpl. rewrite !app_nil_r. apply Hi.
  Qed.

  Lemma once_rtc a b :
    api_program run -> rtc (qstep run) a b -> once_inv a.1.2 (phase_cur a.2) -> once_inv b.1.2 (phase_cur b.2).
  Proof. intros Ha Hr. induction Hr; eauto using once_step. Qed.
End once.

(** ** No work is lost by disciplined programs *)
Section disc.
  Context {C : Type}.
  Implicit Types (q : queue C).

  Definition done_rem (p : phase C) : list nat := match p with PF _ d => d | _ => [] end.
  Definition ts_rem (p : phase C) : list nat := match p with PT _ ts => ts | _ => [] end.
  Definition cur_ts (p : phase C) : option nat := match p with PT (Some (t, _)) _ => Some t | _ => None end.

  Record disc_inv (q : queue C) (dn : list nat) (tss : list nat) (ct : option nat) : Prop := {
    di_keys : dkeys (q_futs q) = dkeys (q_forks q);
    di_nodup : NoDup (dkeys (q_futs q));
    di_nts : forall t, t ∈ dkeys (q_futs q) -> t < q_nts q;
    di_nfut : forall f, f ∈ q_futures q -> f < q_nfut q;
    di_futs : NoDup (q_futures q);
    di_forks : forall t l t', dget t (q_forks q) = Some l -> t' ∈ l -> t < t' /\ alive q t';
    di_cbf : forall f, KF f ∈ dkeys (q_cbs q) -> f ∈ q_futures q \/ f ∈ dn;
    di_cbt : forall t, KT t ∈ dkeys (q_cbs q) -> alive q t /\ ct <> Some t;
    di_cbn : NoDup (dkeys (q_cbs q));
    di_dn : NoDup dn /\ (forall f, f ∈ dn -> f ∉ q_futures q /\ f < q_nfut q);
    di_tss : NoDup tss /\ forall t, t ∈ tss -> alive q t /\ ~ busy q t /\ ct <> Some t;
    di_ct : forall t, ct = Some t -> alive q t /\ ~ busy q t;
    di_sub : forall t f, EvSubmit t f ∈ q_trace q ->
      (exists l, dget t (q_futs q) = Some l /\ f ∈ l) \/ EvDone f ∈ q_trace q \/ f ∈ dn;
    di_frk : forall p t, EvFork (Some p) t ∈ q_trace q ->
      (exists l, dget p (q_forks q) = Some l /\ t ∈ l) \/ EvComplete t ∈ q_trace q;
    di_after : fires_after_completion (q_trace q);
  }.

  Lemma alive_iff q t : alive q t <-> is_Some (dget t (q_futs q)).
  Proof. unfold alive. by rewrite dget_is_Some. Qed.

  Lemma elem_futures q f : NoDup (dkeys (q_futs q)) ->
    f ∈ q_futures q <-> exists t l, dget t (q_futs q) = Some l /\ f ∈ l.
  Proof.
    intros Hn. unfold q_futures. rewrite elem_of_list_In, in_concat. split.
    - intros (l & Hl & Hf). apply elem_of_list_In, elem_of_list_fmap in Hl as ([t l'] & -> & Hin).
      exists t, l'. split; [by apply dget_NoDup|]. by apply elem_of_list_In.
    - intros (t & l & Hd & Hf). exists l. split; [|by apply elem_of_list_In].
      apply elem_of_list_In, elem_of_list_fmap. exists (t, l). split; [done|]. by apply dget_Some_elem.
  Qed.

  Lemma futures_dset_perm t f l (d : dict nat (list nat)) :
    dget t d = Some l -> concat (map snd (dset t (l ++ [f]) d)) ≡ₚ f :: concat (map snd d).
  Proof.
    induction d as [|[t' l'] d IH]; simpl; [done|]. destruct (decide (t = t')) as [->|]; simpl.
    - intros [= ->]. rewrite <-app_assoc. simpl. by rewrite Permutation_middle.
    - intros Hd. rewrite IH by done. by rewrite <-Permutation_middle.
  Qed.
  Lemma futures_dset_new t (d : dict nat (list nat)) :
    t ∉ dkeys d -> concat (map snd (dset t [] d)) = concat (map snd d).
  Proof. intros H. rewrite dset_app_new by done. rewrite map_app, concat_app. simpl. by rewrite app_nil_r. Qed.

  Lemma fac_snoc (tr : list (qev C)) e :
    fires_after_completion tr ->
    match e with
    | EvFire (KF f) c => EvDone f ∈ tr
    | EvFire (KT t) c => (forall f, EvSubmit t f ∈ tr -> EvDone f ∈ tr) /\
                         (forall t', EvFork (Some t) t' ∈ tr -> EvComplete t' ∈ tr)
    | _ => True
    end -> fires_after_completion (tr ++ [e]).
  Proof.
    intros [H1 H2] He. split.
    - intros t1 t2 f c Heq. destruct t2 as [|e2 t2 _] using rev_ind.
      + apply app_inj_tail in Heq as [-> ->]. done.
      + rewrite app_comm_cons, app_assoc in Heq. apply app_inj_tail in Heq as [-> ->]. eauto.
    - intros t1 t2 f c Heq. destruct t2 as [|e2 t2 _] using rev_ind.
      + apply app_inj_tail in Heq as [-> ->]. done.
      + rewrite app_comm_cons, app_assoc in Heq. apply app_inj_tail in Heq as [-> ->]. eauto.
  Qed.

  Lemma elem_snoc {A} (x y : A) l : x ∈ l ++ [y] <-> x ∈ l \/ x = y.
  Proof. rewrite elem_of_app, elem_of_list_singleton. done. Qed.

  Lemma busy_submit q t f l t' :
    dget t (q_futs q) = Some l ->
    busy (MkQ (dset t (l ++ [f]) (q_futs q)) (q_forks q) (q_cbs q) (S f) (q_nts q) (q_trace q ++ [EvSubmit t f])) t' ->
    t' = t \/ busy q t'.
  Proof.
    intros Hd [(f' & l' & Hb)|Hb]; simpl in *.
    - rewrite dget_dset in Hb. destruct (decide (t' = t)); [by left|]. right. left. eauto.
    - right. right. done.
  Qed.

  (** [lim] describes which task sets the running code may use; sets in the list of
      completed ones are neither busy nor new. *)
  Definition lim_ok (lim : option nat) (q : queue C) (tss : list nat) (ct : option nat) : Prop :=
    match lim with
    | None => tss = [] /\ ct = None
    | Some n => n <= q_nts q /\ (forall t, t ∈ tss -> t < n) /\ (forall t, ct = Some t -> t < n)
    end.

  Lemma usable_not_ts lim q dn tss ct t :
    disc_inv q dn tss ct -> lim_ok lim q tss ct -> usable lim q t -> t ∉ tss /\ ct <> Some t.
  Proof.
    intros Hi Hl [Ha Hu]. destruct lim as [n|].
    - destruct Hl as (Hn & Ht & Hc). destruct Hu as [Hu|Hu].
      + split; [intros Hin; apply Ht in Hin; lia | intros Hin; apply Hc in Hin; lia].
      + split; [intros Hin; apply (di_tss _ _ _ _ Hi) in Hin; tauto
               | intros Hin; apply (di_ct _ _ _ _ Hi) in Hin; tauto].
    - destruct Hl as [-> ->]. split; [apply not_elem_of_nil|done].
  Qed.

  Lemma disc_op lim q o q1 dn tss ct :
    disc_inv q dn tss ct -> lim_ok lim q tss ct -> disciplined lim q o -> apply_op q o = Ok q1 ->
    disc_inv q1 dn tss ct /\ lim_ok lim q1 tss ct.
  Proof.
    intros Hi Hl Hd Ho. destruct o as [t|p|k' c]; simpl in Ho.
    - (* submit *)
      unfold q_submit in Ho. destruct (dget t (q_futs q)) as [l|] eqn:Et; simplify_eq/=.
      destruct (usable_not_ts _ _ _ _ _ _ Hi Hl Hd) as [Hts Hct].
      assert (dkeys (dset t (l ++ [q_nfut q]) (q_futs q)) = dkeys (q_futs q)) as Hk.
      { rewrite dkeys_dset, decide_True; [done|]. apply dget_is_Some. eauto. }
      pose proof (futures_dset_perm t (q_nfut q) l _ Et) as Hperm.
      assert (forall f, f ∈ concat (map snd (dset t (l ++ [q_nfut q]) (q_futs q))) <-> f = q_nfut q \/ f ∈ q_futures q) as Hel.
      { intros f. unfold q_futures. rewrite Hperm, elem_of_cons. done. }
      split; [|by destruct lim].
      destruct Hi. split; unfold alive, q_futures in *; simpl; rewrite ?Hk; try done.
      + intros f. rewrite Hel. intros [->|Hf]; [lia|]. apply di_nfut0 in Hf. lia.
      + rewrite Hperm. constructor; [|done]. intros Hin. apply di_nfut0 in Hin. lia.
      + intros f Hf. rewrite Hel. apply di_cbf0 in Hf. tauto.
      + destruct di_dn0 as [Hn Hf]. split; [done|]. intros f Hin. rewrite Hel.
        destruct (Hf f Hin). split; [|lia]. intros [->|?]; [lia|tauto].
      + destruct di_tss0 as [Hn Hf]. split; [done|]. intros t' Hin.
        destruct (Hf t' Hin) as (? & Hb & ?). split; [done|]. split; [|done].
        intros Hb'. eapply busy_submit in Hb' as [->|]; done.
      + intros t' Hc. destruct (di_ct0 t' Hc) as [? Hb]. split; [done|].
        intros Hb'. eapply busy_submit in Hb' as [->|]; done.
      + intros t' f. rewrite !elem_snoc. intros [Hin|[= -> ->]].
        * destruct (di_sub0 _ _ Hin) as [(l' & Hl' & Hf)|[?|?]]; [|by right; left; left|by right; right].
          left. rewrite dget_dset. destruct (decide (t' = t)) as [->|]; [|eauto].
          assert (l' = l) as -> by congruence. eexists; split; [done|]. rewrite elem_of_app. by left.
        * left. rewrite dget_dset_eq. eexists; split; [done|]. rewrite elem_of_app. right. left.
      + intros p t'. rewrite !elem_snoc. intros [Hin|?]; [|done].
        destruct (di_frk0 _ _ Hin) as [?|?]; [by left | by right; left].
      + by apply fac_snoc.
    - (* fork *)
      set (t := q_nts q) in *.
      assert (t ∉ dkeys (q_futs q)) as Hnew.
      { intros Hin. apply (di_nts _ _ _ _ Hi) in Hin. unfold t in Hin. lia. }
      assert (t ∉ dkeys (q_forks q)) as Hnew' by (by rewrite <-(di_keys _ _ _ _ Hi)).
      assert (forall frk, (forall x, x <> t -> Some x <> p -> dget x frk = dget x (q_forks q)) ->
          dkeys frk = dkeys (q_forks q) ++ [t] ->
          (forall x l y, dget x frk = Some l -> y ∈ l -> (exists l', dget x (q_forks q) = Some l' /\ y ∈ l') \/ (p = Some x /\ y = t)) ->
          (forall x l y, dget x (q_forks q) = Some l -> y ∈ l -> exists l', dget x frk = Some l' /\ y ∈ l') ->
          (match p with Some p' => usable lim q p' /\ exists l, dget p' frk = Some l /\ t ∈ l | None => True end) ->
          disc_inv (MkQ (dset t [] (q_futs q)) frk (q_cbs q) (q_nfut q) (S t) (q_trace q ++ [EvFork p t])) dn tss ct
          /\ lim_ok lim (MkQ (dset t [] (q_futs q)) frk (q_cbs q) (q_nfut q) (S t) (q_trace q ++ [EvFork p t])) tss ct) as Hmain.
      { intros frk Hfr Hfk Hf1 Hf2 Hp.
        assert (dkeys (dset t [] (q_futs q)) = dkeys (q_futs q) ++ [t]) as Hk.
        { rewrite dkeys_dset, decide_False; done. }
        assert (concat (map snd (dset t [] (q_futs q))) = q_futures q) as Hfs by by apply futures_dset_new.
        assert (forall t', t' ∈ dkeys (q_futs q) -> Some t' <> p ->
          busy (MkQ (dset t [] (q_futs q)) frk (q_cbs q) (q_nfut q) (S t) (q_trace q ++ [EvFork p t])) t' -> busy q t') as Hbusy.
        { intros t' Hin Hne Hb. assert (t' <> t) by (intros ->; done).
          destruct Hb as [(a & b & Hb)|(a & b & Hb)]; simpl in Hb.
          - rewrite dget_dset_ne in Hb by done. left; eauto.
          - rewrite Hfr in Hb by done. right; eauto. }
        split.
        2: { destruct lim as [n|]; simpl in *; [|done]. destruct Hl as (? & ? & ?). split; [unfold t; lia|done]. }
        assert (forall t', p = Some t' -> t' ∉ tss /\ ct <> Some t') as Hnts.
        { intros t' ->. destruct Hp as [Hp _]. by eapply usable_not_ts. }
        destruct Hi. split; unfold alive, q_futures in *; simpl; rewrite ?Hk, ?Hfs; try done.
        - rewrite Hfk. congruence.
        - apply NoDup_app. split; [done|]. split; [|apply NoDup_singleton].
          intros x Hx ->%elem_of_list_singleton. done.
        - intros x. rewrite elem_snoc. intros [Hx| ->]; [|lia]. apply di_nts0 in Hx. unfold t. lia.
        - intros x l y Hx Hy. rewrite elem_snoc. destruct (Hf1 _ _ _ Hx Hy) as [(l' & Hl' & Hy')|[Hpx ->]].
          + destruct (di_forks0 _ _ _ Hl' Hy'). eauto.
          + split; [|by right]. rewrite Hpx in Hp. destruct Hp as [[Hp _] _]. by apply di_nts0 in Hp.
        - intros x Hx. rewrite elem_snoc. apply di_cbt0 in Hx. tauto.
        - destruct di_tss0 as [Hn Hf]. split; [done|]. intros x Hx. destruct (Hf x Hx) as (? & ? & ?).
          rewrite elem_snoc. split; [by left|]. split; [|done]. intros Hb. eapply Hbusy in Hb; try done.
          intros Hpx. symmetry in Hpx. by apply Hnts in Hpx as [? ?].
        - intros x Hx. destruct (di_ct0 x Hx) as [? ?]. rewrite elem_snoc. split; [by left|].
          intros Hb. eapply Hbusy in Hb; try done. intros Hpx. symmetry in Hpx. by apply Hnts in Hpx as [? ?].
        - intros x f. rewrite !elem_snoc. intros [Hx|?]; [|done].
          destruct (di_sub0 _ _ Hx) as [(l' & Hl' & Hf)|[?|?]]; [|by right; left; left|by right; right].
          left. exists l'. split; [|done]. rewrite dget_dset_ne; [done|]. intros ->.
          apply Hnew. apply dget_is_Some. eauto.
        - intros x y. rewrite !elem_snoc. intros [Hx|[= Hx ->]].
          + destruct (di_frk0 _ _ Hx) as [(l' & Hl' & Hy)|?]; [|by right; left]. left. eauto.
          + left. rewrite <-Hx in Hp. by destruct Hp.
        - by apply fac_snoc. }
      unfold q_fork in Ho. fold t in Ho. destruct p as [p|].
      + assert (p <> t) as Hne.
        { intros ->. destruct Hd as [Hd _]. done. }
        rewrite dget_dset_ne in Ho by done.
        destruct (dget p (q_forks q)) as [l|] eqn:Ep; simplify_eq/=.
        apply Hmain.
        * intros x ? ?. rewrite !dget_dset_ne; congruence.
        * rewrite dkeys_dset, decide_True.
          { rewrite dkeys_dset, decide_False; done. }
          rewrite dkeys_dset, decide_False by done. apply elem_of_app. left. apply dget_is_Some. eauto.
        * intros x l' y. rewrite dget_dset. destruct (decide (x = p)) as [->|].
          { intros [= <-]. rewrite elem_snoc. intros [?| ->]; [left; eauto|by right]. }
          rewrite dget_dset. destruct (decide (x = t)); [intros [= <-] ?%elem_of_nil; done|]. left; eauto.
        * intros x l' y Hx Hy. rewrite dget_dset. destruct (decide (x = p)) as [->|].
          { eexists. split; [done|]. rewrite elem_snoc. left. congruence. }
          rewrite dget_dset_ne; [eauto|]. intros ->. apply Hnew'. apply dget_is_Some. eauto.
        * split; [done|]. rewrite dget_dset_eq. eexists. split; [done|]. apply elem_snoc. by right.
      + simplify_eq/=. apply Hmain.
        * intros x ? ?. by rewrite !dget_dset_ne.
        * rewrite dkeys_dset, decide_False; done.
        * intros x l' y. rewrite dget_dset. destruct (decide (x = t)); [intros [= <-] ?%elem_of_nil; done|]. left; eauto.
        * intros x l' y Hx Hy. rewrite dget_dset_ne; [eauto|]. intros ->. apply Hnew'. apply dget_is_Some. eauto.
        * done.
    - (* add *)
      simplify_eq. split; [|by destruct lim].
      assert (forall k, k ∈ dkeys (dappend k' c (q_cbs q)) -> k = k' \/ k ∈ dkeys (q_cbs q)) as Hk.
      { intros k. unfold dappend. rewrite dkeys_dset. destruct (decide _); [by right|].
        rewrite elem_snoc. tauto. }
      assert (forall t, k' = KT t -> alive q t /\ ct <> Some t) as Hkt.
      { intros t ->. simpl in Hd. destruct (usable_not_ts _ _ _ _ _ _ Hi Hl Hd). split; [apply Hd|done]. }
      destruct Hi. split; unfold alive, q_futures in *; simpl; try done.
      + intros f Hf. apply Hk in Hf as [<-|Hf]; [|auto]. by left.
      + intros t Hf. apply Hk in Hf as [<-|Hf]; [|auto]. by apply Hkt.
      + by apply NoDup_dset.
      + intros t f. rewrite !elem_snoc. intros [Hx|?]; [|done].
        destruct (di_sub0 _ _ Hx) as [?|[?|?]]; [by left|by right; left; left|by right; right].
      + intros x y. rewrite !elem_snoc. intros [Hx|?]; [|done].
        destruct (di_frk0 _ _ Hx) as [?|?]; [by left|by right; left].
      + by apply fac_snoc.
  Qed.

  Lemma disc_uses lim q q' dn tss ct :
    uses (disciplined lim) q q' -> disc_inv q dn tss ct -> lim_ok lim q tss ct ->
    disc_inv q' dn tss ct /\ lim_ok lim q' tss ct.
  Proof.
    induction 1 as [q|q o q1 q2 Ha Ho Hu IH]; intros Hi Hl; [done|].
    destruct (disc_op _ _ _ _ _ _ _ Hi Hl Ha Ho). auto.
  Qed.

  Lemma disc_empty : disc_inv (@q_empty C) [] [] None.
  Proof.
    assert (forall A (x : A), x ∈ [] -> False) as Hnil by (intros; by eapply not_elem_of_nil).
    assert (fires_after_completion (C:=C) []) as Hf by (split; intros [|? ?]; done).
    split; unfold alive, q_futures; simpl; try done; try (intros; exfalso; by eapply Hnil); try constructor;
      try (intros; exfalso; by eapply Hnil); try apply Hf.
    all: constructor.
  Qed.

  Lemma q_completed_spec q t : NoDup (dkeys (q_futs q)) -> dkeys (q_futs q) = dkeys (q_forks q) ->
    t ∈ q_completed q <-> alive q t /\ ~ busy q t.
  Proof.
    intros Hn Hk. unfold q_completed. rewrite elem_of_list_fmap. split.
    - intros ([t' l] & -> & Hin). apply elem_of_list_In, filter_In in Hin as [Hin Hb].
      apply elem_of_list_In in Hin. pose proof (dget_NoDup _ _ _ Hn Hin) as Hg. simpl in *.
      split; [apply alive_iff; eauto|]. intros [(f & l' & Hl)|(f & l' & Hl)].
      + rewrite Hg in Hl; by simplify_eq.
      + rewrite Hl in Hb. by rewrite andb_false_r in Hb.
    - intros [Ha Hb]. apply alive_iff in Ha as [l Hl]. exists (t, l). split; [done|].
      apply elem_of_list_In, filter_In. split; [by apply elem_of_list_In, dget_Some_elem|]. simpl.
      destruct l as [|f l]; [|exfalso; apply Hb; left; eauto]. simpl.
      destruct (dget t (q_forks q)) as [[|f l]|] eqn:Ef; [done|exfalso; apply Hb; right; eauto|].
      apply dget_None in Ef. rewrite <-Hk in Ef. exfalso. apply Ef. apply dget_is_Some. eauto.
  Qed.
End disc.

(** Invariants of disciplined programs along all steps. [J] is an invariant of the program
    which may be needed to show that its callbacks are disciplined. *)
Section disc_steps.
  Context {C W : Type} (run : C -> W * queue C -> res (W * queue C)).
  Notation cfg := ((W * queue C) * phase C)%type.

  Definition cfg_disc (a : cfg) : Prop :=
    disc_inv a.1.2 (done_rem a.2) (ts_rem a.2) (cur_ts a.2)
    /\ match a.2 with PF (Some (f, _)) _ => EvDone f ∈ q_trace a.1.2 | _ => True end.

  (** the callback about to run is disciplined *)
  Definition cfg_good (a : cfg) : Prop :=
    match phase_cur a.2 with
    | Some (k, c :: _) =>
        forall y, fire run k a.1 c = Ok y ->
          uses (disciplined (lim_of k a.1.2)) (q_emit (EvFire k c) a.1.2) y.2
    | _ => True
    end.

  Lemma uses_trace A (q q' : queue C) e : uses A q q' -> e ∈ q_trace q -> e ∈ q_trace q'.
  Proof.
    induction 1 as [q|q o q1 q2 _ Ho _ IH]; [done|]. intros He. apply IH.
    destruct o as [t|p|k c]; simpl in Ho.
    - unfold q_submit in Ho. destruct (dget t _); simplify_eq/=. apply elem_of_app; by left.
    - unfold q_fork in Ho. destruct p as [p|]; [destruct (dget p _)|]; simplify_eq/=; apply elem_of_app; by left.
    - simplify_eq/=. apply elem_of_app; by left.
  Qed.

  Lemma disc_emit (q : queue C) dn tss ct e :
    disc_inv q dn tss ct ->
    match e with
    | EvFire (KF f) c => EvDone f ∈ q_trace q
    | EvFire (KT t) c => ct = Some t /\ dn = []
    | EvDone _ => True
    | _ => False
    end -> disc_inv (q_emit e q) dn tss ct.
  Proof.
    intros Hi He.
    assert (match e with
            | EvFire (KF f) c => EvDone f ∈ q_trace q
            | EvFire (KT t) c => (forall f, EvSubmit t f ∈ q_trace q -> EvDone f ∈ q_trace q) /\
                         (forall t', EvFork (Some t) t' ∈ q_trace q -> EvComplete t' ∈ q_trace q)
            | _ => True
            end) as He'.
    { destruct e as [| | | |[f|t] c|]; try done. destruct He as [Hct ->].
      apply (di_ct _ _ _ _ Hi) in Hct as [_ Hb]. split.
      - intros f Hf. destruct (di_sub _ _ _ _ Hi _ _ Hf) as [(l & Hl & Hin)|[?|Hx]]; [|done|].
        + exfalso. destruct l as [|f' l]; [by apply not_elem_of_nil in Hin|]. apply Hb. left. eauto.
        + by apply not_elem_of_nil in Hx.
      - intros t' Hf. destruct (di_frk _ _ _ _ Hi _ _ Hf) as [(l & Hl & Hin)|?]; [|done].
        exfalso. destruct l as [|f' l]; [by apply not_elem_of_nil in Hin|]. apply Hb. right. eauto. }
    destruct Hi; split; simpl; try done.
    - intros t f. rewrite !elem_snoc. intros [Hx|Hx]; [|by subst e].
      destruct (di_sub0 _ _ Hx) as [?|[?|?]]; [by left|by right; left; left|by right; right].
    - intros p t. rewrite !elem_snoc. intros [Hx|Hx]; [|by subst e].
      destruct (di_frk0 _ _ Hx) as [?|?]; [by left|by right; left].
    - by apply fac_snoc.
  Qed.

  Lemma dget_map_snd {V V'} (g : V -> V') (d : dict nat V) t :
    dget t (map (fun p => (p.1, g p.2)) d) = option_map g (dget t d).
  Proof. induction d as [|[k v] d IH]; simpl; [done|]. by destruct (decide (t = k)). Qed.
  Lemma dkeys_map_snd {V V'} (g : V -> V') (d : dict nat V) :
    dkeys (map (fun p => (p.1, g p.2)) d) = dkeys d.
  Proof. unfold dkeys. rewrite map_map. done. Qed.

  Lemma elem_filter_in (f : nat) (done l : list nat) :
    f ∈ List.filter (fun f => negb (bool_decide (f ∈ done))) l <-> f ∈ l /\ f ∉ done.
  Proof. rewrite elem_of_list_In, filter_In, <-elem_of_list_In, negb_true_iff, bool_decide_eq_false. done. Qed.

  Lemma futures_difference (q : queue C) done f :
    f ∈ q_futures (q_difference done q) <-> f ∈ q_futures q /\ f ∉ done.
  Proof.
    unfold q_futures, q_difference; simpl. rewrite map_map; simpl.
    induction (q_futs q) as [|[t l] d IH]; simpl; [rewrite !elem_of_nil; tauto|].
    rewrite !elem_of_app, IH, elem_filter_in. tauto.
  Qed.
  Lemma NoDup_futures_difference (q : queue C) done :
    NoDup (q_futures q) -> NoDup (q_futures (q_difference done q)).
  Proof.
    unfold q_futures, q_difference; simpl. rewrite map_map; simpl.
    assert (forall (d : dict nat (list nat)),
      concat (map (fun p => List.filter (fun f => negb (bool_decide (f ∈ done))) p.2) d)
      = List.filter (fun f => negb (bool_decide (f ∈ done))) (concat (map snd d))) as ->.
    { intros d. induction d as [|[t l] d IH]; simpl; [done|]. by rewrite IH, List.filter_app. }
    rewrite !NoDup_ListNoDup. apply List.NoDup_filter.
  Qed.

  Lemma disc_start (q : queue C) done :
    disc_inv q [] [] None -> NoDup done -> (forall f, f ∈ done -> f ∈ q_futures q) ->
    disc_inv (q_difference done q) done [] None.
  Proof.
    intros Hi Hn Hd.
    pose proof (futures_difference q done) as Hf. pose proof (NoDup_futures_difference q done) as Hnf.
    assert (dkeys (q_futs (q_difference done q)) = dkeys (q_futs q)) as Hk by (unfold q_difference; simpl; by rewrite dkeys_map_snd).
    destruct Hi; split; unfold alive in *; simpl q_forks; simpl q_cbs; simpl q_trace; simpl q_nts; simpl q_nfut;
      rewrite ?Hk; try done; auto.
    - intros f. rewrite Hf. intros [? ?]; auto.
    - intros f Hx. rewrite Hf. destruct (decide (f ∈ done)); [by right|].
      apply di_cbf0 in Hx as [?|Hx]; [by left|by apply not_elem_of_nil in Hx].
    - split; [done|]. intros f Hx. rewrite Hf. split; [tauto|]. apply di_nfut0. auto.
    - split; [constructor|]. intros t Ht. by apply not_elem_of_nil in Ht.
    - intros t f Hx. destruct (di_sub0 _ _ Hx) as [(l & Hl & Hin)|[?|Hy]]; [|by right; left|by apply not_elem_of_nil in Hy].
      destruct (decide (f ∈ done)); [by right; right|]. left. simpl. rewrite dget_map_snd, Hl. simpl.
      eexists. split; [done|]. by apply elem_filter_in.
  Qed.

  Lemma dkeys_ddel_eq k k' (d : dict ckey (list C)) : NoDup (dkeys d) -> k' ∈ dkeys (ddel k d) <-> k' ∈ dkeys d /\ k' <> k.
  Proof.
    intros Hn. rewrite <-!dget_is_Some. destruct (decide (k' = k)) as [->|].
    - rewrite dget_ddel_eq by done. split; [by intros [? [=]] | naive_solver].
    - rewrite dget_ddel_ne by done. naive_solver.
  Qed.
  Lemma dkeys_ddel_nat {V} k k' (d : dict nat V) : NoDup (dkeys d) -> k' ∈ dkeys (ddel k d) <-> k' ∈ dkeys d /\ k' <> k.
  Proof.
    intros Hn. rewrite <-!dget_is_Some. destruct (decide (k' = k)) as [->|].
    - rewrite dget_ddel_eq by done. split; [by intros [? [=]] | naive_solver].
    - rewrite dget_ddel_ne by done. naive_solver.
  Qed.

  Lemma dkeys_ddel_list {V V'} k (d : dict nat V) (d' : dict nat V') :
    dkeys d = dkeys d' -> dkeys (ddel k d) = dkeys (ddel k d').
  Proof.
    unfold dkeys. revert d'; induction d as [|[a b] d IH]; intros [|[a' b'] d'] Hk; simpl in *; try done.
    injection Hk as -> Hk. destruct (decide (k = a')); simpl; [done|]. f_equal; auto.
  Qed.

  Lemma elem_filter_neq (x t : nat) l : x ∈ List.filter (fun y => negb (Nat.eqb y t)) l <-> x ∈ l /\ x <> t.
  Proof.
    rewrite elem_of_list_In, filter_In, <-elem_of_list_In, negb_true_iff. rewrite Nat.eqb_neq. done.
  Qed.

  Lemma futures_ddel (d : dict nat (list nat)) t :
    dget t d = Some [] -> concat (map snd (ddel t d)) = concat (map snd d).
  Proof.
    induction d as [|[a b] d IH]; simpl; [done|]. destruct (decide (t = a)); simpl.
    - intros [= ->]. done.
    - intros H. by rewrite IH.
  Qed.

  Lemma disc_complete (q : queue C) t ts :
    disc_inv q [] ts (Some t) -> disc_inv (q_complete t q) [] ts None.
  Proof.
    intros Hi. destruct (di_ct _ _ _ _ Hi t eq_refl) as [Ha Hb].
    pose proof (di_nodup _ _ _ _ Hi) as Hn. pose proof (di_keys _ _ _ _ Hi) as Hk.
    assert (NoDup (dkeys (q_forks q))) as Hn' by (by rewrite <-Hk).
    assert (dget t (q_futs q) = Some []) as Ht.
    { apply alive_iff in Ha as [[|f l] Hl]; [done|]. exfalso. apply Hb. left; eauto. }
    assert (dkeys (q_futs (q_complete t q)) = dkeys (ddel t (q_futs q))) as Hkf by done.
    assert (q_futures (q_complete t q) = q_futures q) as Hfs by (unfold q_futures; simpl; by apply futures_ddel).
    assert (forall x, busy (q_complete t q) x -> busy q x) as Hbusy.
    { intros x [(f & l & Hx)|(f & l & Hx)]; simpl in Hx.
      - destruct (decide (x = t)) as [->|]; [by rewrite dget_ddel_eq in Hx|].
        rewrite dget_ddel_ne in Hx by done. left; eauto.
      - rewrite dget_map_snd in Hx. destruct (decide (x = t)) as [->|]; [by rewrite dget_ddel_eq in Hx|].
        rewrite dget_ddel_ne in Hx by done. destruct (dget x (q_forks q)) as [[|y l']|] eqn:Ex; simpl in Hx; simplify_eq.
        right. eauto. }
    destruct Hi; split; unfold alive in *; rewrite ?Hfs, ?Hkf; try done.
    - simpl. rewrite dkeys_map_snd. by apply dkeys_ddel_list.
    - by apply NoDup_ddel.
    - intros x. rewrite dkeys_ddel_nat by done. intros [? ?]. simpl. auto.
    - intros x l y. simpl. rewrite dget_map_snd. destruct (decide (x = t)) as [->|].
      { by rewrite dget_ddel_eq. }
      rewrite dget_ddel_ne by done. destruct (dget x (q_forks q)) as [l'|] eqn:Ex; simpl; [|done].
      intros [= <-] Hy. apply elem_filter_neq in Hy as [Hy Hne]. rewrite dkeys_ddel_nat by done.
      destruct (di_forks0 _ _ _ Ex Hy). auto.
    - intros x. rewrite dkeys_ddel_nat by done. intros Hx. apply di_cbt0 in Hx as [? Hx].
      split; [|done]. split; [done|]. congruence.
    - destruct di_tss0 as [Hnt Hts]. split; [done|]. intros x Hx. destruct (Hts x Hx) as (? & ? & Hxt).
      rewrite dkeys_ddel_nat by done. split; [split; [done|congruence]|]. split; [|done]. eauto.
    - simpl. intros x f. rewrite !elem_snoc. intros [Hx|?]; [|done].
      destruct (di_sub0 _ _ Hx) as [(l & Hl & Hin)|[?|?]]; [|by right; left; left|by right; right].
      left. destruct (decide (x = t)) as [->|]; [|rewrite dget_ddel_ne by done; eauto].
      rewrite Ht in Hl. simplify_eq. by apply not_elem_of_nil in Hin.
    - simpl. intros x y. rewrite !elem_snoc. intros [Hx|?]; [|done].
      destruct (di_frk0 _ _ Hx) as [(l & Hl & Hin)|?]; [|by right; left].
      destruct (decide (y = t)) as [->|]; [by right; right|].
      left. rewrite dget_map_snd. destruct (decide (x = t)) as [->|].
      + exfalso. destruct l as [|z l]; [by apply not_elem_of_nil in Hin|]. apply Hb. right. eauto.
      + rewrite dget_ddel_ne, Hl by done. simpl. eexists. split; [done|]. by apply elem_filter_neq.
    - by apply fac_snoc.
  Qed.

  Lemma disc_step a b : cfg_disc a -> cfg_good a -> qstep run a b -> cfg_disc b.
  Proof.
    intros [Hi Hc] Hg Hs. destruct Hs; unfold cfg_disc in *; simpl in *.
    - split; [|done]. by apply disc_start.
    - (* pop future *)
      apply (disc_emit _ _ _ _ (EvDone f)) in Hi; [|done]. unfold q_pop in *. simplify_eq.
      split; [|simpl; apply elem_snoc; by right].
      destruct Hi; split; unfold alive in *; simpl in *; try done.
      + intros f' Hf'. apply dkeys_ddel_eq in Hf' as [Hf' Hne]; [|done].
        apply di_cbf0 in Hf' as [?|Hf']; [by left|]. right. apply elem_of_cons in Hf' as [->|]; congruence.
      + intros t Ht. apply dkeys_ddel_eq in Ht as [Ht Hne]; [|done]. auto.
      + by apply NoDup_ddel.
      + destruct di_dn0 as [Hn Hd]. apply NoDup_cons in Hn as [? ?]. split; [done|].
        intros f' Hf'. apply Hd. by right.
      + intros t f' Hx. destruct (di_sub0 _ _ Hx) as [?|[?|Hy]]; [by left|by right; left|].
        apply elem_of_cons in Hy as [->|]; [|by right; right]. right; left. apply elem_snoc. by right.
    - (* fire under a future *)
      unfold cfg_good in Hg; simpl in Hg. specialize (Hg _ H).
      apply (disc_emit _ _ _ _ (EvFire (KF f) c)) in Hi; [|done].
      eapply disc_uses in Hi as [Hi _]; [|exact Hg|done]. split; [done|].
      eapply uses_trace; [exact Hg|]. simpl. apply elem_snoc. by left.
    - done.
    - done.
    - split; [|done]. pose proof (q_completed_spec x.2) as Hq.
      destruct Hi; split; try done. split.
      + unfold q_completed. apply NoDup_ListNoDup.
        assert (forall (P : nat * list nat -> bool) (d : dict nat (list nat)), NoDup (dkeys d) -> NoDup (map fst (List.filter P d))) as Haux.
        { intros P d. unfold dkeys. induction d as [|p d IH]; simpl; [done|]. intros Hn.
          apply NoDup_cons in Hn as [Hni Hn]. destruct (P p); simpl; [|auto]. constructor; [|auto].
          intros Hin. apply Hni. apply elem_of_list_fmap in Hin as (p' & Hp' & Hin).
          apply elem_of_list_In, filter_In in Hin as [Hin _]. rewrite Hp'.
          apply elem_of_list_fmap. exists p'. split; [done|]. by apply elem_of_list_In. }
        apply NoDup_ListNoDup. by apply Haux.
      + intros t Ht. apply Hq in Ht as [? ?]; [|done|done]. done.
    - (* pop task set *)
      unfold q_pop in *. simplify_eq. split; [|done].
      destruct Hi; split; unfold alive in *; simpl in *; try done.
      + intros f' Hf'. apply dkeys_ddel_eq in Hf' as [Hf' Hne]; [|done]. auto.
      + intros t' Ht. apply dkeys_ddel_eq in Ht as [Ht Hne]; [|done]. apply di_cbt0 in Ht as [? ?].
        split; [done|]. congruence.
      + by apply NoDup_ddel.
      + destruct di_tss0 as [Hn Hd]. apply NoDup_cons in Hn as [? ?]. split; [done|].
        intros t' Ht'. destruct (Hd t') as (? & ? & ?); [by right|]. split; [done|]. split; [done|]. congruence.
      + intros t' [= <-]. destruct di_tss0 as [Hn Hd]. destruct (Hd t) as (? & ? & ?); [left|]. done.
    - (* fire under a task set *)
      unfold cfg_good in Hg; simpl in Hg. specialize (Hg _ H). split; [|done].
      apply (disc_emit _ _ _ _ (EvFire (KT t) c)) in Hi; [|done].
      eapply disc_uses in Hi as [Hi _]; [exact Hi|exact Hg|]. simpl. split; [lia|].
      split.
      + intros t' Ht'. apply (di_nts _ _ _ _ Hi). destruct (di_tss _ _ _ _ Hi) as [_ Hx]. by apply Hx.
      + intros t' [= <-]. apply (di_nts _ _ _ _ Hi). by apply (di_ct _ _ _ _ Hi).
    - split; [|done]. by apply disc_complete.
    - done.
    - done.
  Qed.

  (** A list of natural numbers has a maximum *)
  Lemma list_max (l : list nat) : l <> [] -> exists m, m ∈ l /\ forall x, x ∈ l -> x <= m.
  Proof.
    induction l as [|a [|b l] IH]; intros H; [done| |].
    - exists a. split; [left|]. intros x ->%elem_of_list_singleton. lia.
    - destruct IH as (m & Hm & Hle); [done|]. destruct (decide (a <= m)).
      + exists m. split; [by right|]. intros x [->|Hx]%elem_of_cons; [done|auto].
      + exists a. split; [left|]. intros x [->|Hx]%elem_of_cons; [done|]. apply Hle in Hx. lia.
  Qed.

  Lemma drained (q : queue C) :
    disc_inv q [] [] None -> q_completed q = [] -> q_futures q = [] ->
    q_futs q = [] /\ q_forks q = [] /\ q_cbs q = [].
  Proof.
    intros Hi Hc Hf.
    assert (dkeys (q_futs q) = []) as Hk.
    { destruct (decide (dkeys (q_futs q) = [])) as [|Hne]; [done|]. exfalso.
      apply list_max in Hne as (t & Ht & Hmax).
      assert (t ∈ q_completed q) as Hin.
      { apply q_completed_spec; [apply Hi|apply Hi|]. split; [done|].
        intros [(f & l & Hx)|(t' & l & Hx)].
        - assert (f ∈ q_futures q) as Hin; [|rewrite Hf in Hin; by apply not_elem_of_nil in Hin].
          apply elem_futures; [apply Hi|]. exists t, (f :: l). split; [done|left].
        - destruct (di_forks _ _ _ _ Hi _ _ t' Hx) as [Hlt Hal]; [left|]. apply Hmax in Hal. lia. }
      rewrite Hc in Hin. by apply not_elem_of_nil in Hin. }
    assert (q_futs q = []) by (by destruct (q_futs q)).
    assert (q_forks q = []). { pose proof (di_keys _ _ _ _ Hi) as Hkk. rewrite Hk in Hkk. by destruct (q_forks q). }
    split; [done|]. split; [done|].
    destruct (q_cbs q) as [|[[f|t] l] d] eqn:Ecb; [done| |]; exfalso.
    - destruct (di_cbf _ _ _ _ Hi f) as [Hx|Hx].
      + rewrite Ecb. simpl. left.
      + rewrite Hf in Hx. by apply not_elem_of_nil in Hx.
      + by apply not_elem_of_nil in Hx.
    - destruct (di_cbt _ _ _ _ Hi t) as [Hx _].
      + rewrite Ecb. simpl. left.
      + unfold alive in Hx. rewrite Hk in Hx. by apply not_elem_of_nil in Hx.
  Qed.

  Lemma disc_rtc a b :
    (forall z, rtc (qstep run) a z -> cfg_good z) ->
    rtc (qstep run) a b -> cfg_disc a -> cfg_disc b.
  Proof.
    intros Hg Hr. induction Hr as [a|a b c Hab Hbc IH]; intros Ha; [done|].
    apply IH.
    - intros z Hz. apply Hg. by eapply rtc_l.
    - eapply disc_step; [done| |done]. apply Hg. apply rtc_refl.
  Qed.

  (** In an idle state reached by [progress] no task set is complete. *)
  Lemma executes_idle fuel sched x y :
    executes run fuel sched x (Ok y) -> sched <> [] -> q_completed y.2 = [].
  Proof.
    intros He. remember (Ok y) as r eqn:Er. revert y Er.
    induction He as [x Hx|dn x e H1 H2 H3 Hp|dn sched x z r H1 H2 H3 Hp He IH]; intros y Er Hs; [by destruct Hs|done|].
    destruct sched as [|d sched].
    - inversion He; simplify_eq. unfold progress in Hp.
      destruct (foldR _ _ _) as [w|] eqn:Ew; [|done]. clear -Hp.
      revert w Hp. induction fuel as [|k IHk]; intros w; simpl; destruct (q_completed w.2) eqn:Ec.
      + by intros [= <-].
      + done.
      + by intros [= <-].
      + destruct (fire_ts run w n) as [b|]; [|done]. destruct (foldR _ b l) as [b'|]; [|done]. apply IHk.
    - by eapply IH.
  Qed.
End disc_steps.
