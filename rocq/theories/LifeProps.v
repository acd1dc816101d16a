(** Consequences of the life cycle of an id for whole histories. *)
From Verif Require Import Spec JsonFacts BackendFacts WorldFacts MicroFacts LifeFacts HistFacts SubmitFacts.

Section props.
  Context {M : Type} `{SM : Serde M} {SO : SerdeOk M}.
  Context (prof : profile).
  Context (sched : string → option (time → option time)).
  Context (name : string).
  Context (clock : nat → time).
  Notation h := (mem_h clock).
  Notation qlist := (qlist name).
  Notation stored := (@stored M SM).
  Notation sys := (sys world M).
  Notation step := (sys_step prof sched name h).
  Notation mstep := (mstep prof sched name clock).
  Notation msteps e := (rtc (mstep e)).
  Notation at_ := (at_ name).
  Notation all_at := (all_at name).
  Notation pstep := (pstep prof sched clock).
  Notation ok_event := (@ok_event M SM).
  Notation ok_hist := (ok_hist prof sched name clock).
  Notation go := (sys_run prof sched name h).
  Notation after := (after prof sched name clock).
  Notation times_in := (times_in name).

  (** *** One pending execution, one task *)
  Lemma at_pending s id p : at_ s id p →
    (times_in s Queued id + times_in s Running id <= 1)%nat ∧
    (length (tasks_of id s) <= times_in s Running id)%nat.
  Proof.
    unfold times_in. change (length (filter (λ x, x = id) ?l)) with (cnt id l).
    destruct p; cbn; intros H; destruct_and?;
      repeat match goal with H : _ = _ |- _ => rewrite H end; cbn; lia.
  Qed.
  Lemma pending_once es id :
    ok_hist initial es → (times_in (after es) Queued id + times_in (after es) Running id <= 1)%nat.
  Proof.
    intros Hok. destruct (all_at_after prof sched name clock es Hok id) as [p Hp].
    by destruct (at_pending _ _ _ Hp).
  Qed.

  Lemma tids_cnt (s : sys) id : length (tasks_of id s) = cnt id (map tid (tasks s)).
  Proof.
    unfold tasks_of, cnt. induction (tasks s) as [|t l IH]; [done|]. cbn [map]. rewrite !filter_cons.
    destruct (decide (tid t = id)); cbn; congruence.
  Qed.
  Lemma all_at_tids s : all_at s → NoDup (map tid (tasks s)).
  Proof.
    intros Ha. apply cnt_nodup. intros id. rewrite <-tids_cnt. destruct (Ha id) as [p Hp].
    destruct (at_pending _ _ _ Hp). lia.
  Qed.
  Lemma no_overlap es : ok_hist initial es → NoDup (map tid (tasks (after es))).
  Proof. intros Hok. by apply all_at_tids, all_at_after. Qed.

  (** *** The limit *)
  Lemma cnt_submseteq l l' : (∀ id, cnt id l <= cnt id l')%nat → (length l <= length l')%nat.
  Proof.
    revert l'. induction l as [|x l IH]; intros l' Hc; [cbn; lia|].
    assert (x ∈ l') as Hx.
    { apply cnt_pos. specialize (Hc x). rewrite cnt_cons, bool_decide_true in Hc by done. lia. }
    apply elem_of_list_split in Hx as (l1 & l2 & ->).
    assert (length l <= length (l1 ++ l2))%nat as Hl.
    { apply IH. intros id. specialize (Hc id). rewrite cnt_cons, cnt_app, cnt_cons in Hc. rewrite cnt_app.
      destruct (bool_decide (x = id)); lia. }
    rewrite app_length in *. cbn. lia.
  Qed.
  Lemma all_at_tasks_le s : all_at s → (length (tasks s) <= length (qlist (sw s) Running))%nat.
  Proof.
    intros Ha. rewrite <-(map_length tid). apply cnt_submseteq. intros id.
    rewrite <-tids_cnt. destruct (Ha id) as [p Hp]. by destruct (at_pending _ _ _ Hp).
  Qed.

  Definition lim (e : event M) : nat :=
    match e with EvStart => 20%nat | EvConfig c => max_processing_jobs c | _ => 0%nat end.
  Lemma limit_of_snoc es e : limit_of (es ++ [e]) = Nat.max (limit_of es) (lim e).
  Proof. induction es as [|e' es IH]; [destruct e; cbn; lia|]. destruct e'; cbn; rewrite ?IH; cbn; lia. Qed.

  Definition in_limit (L : nat) (s : sys) : Prop :=
    (length (qlist (sw s) Running) <= L)%nat ∧
    (alive s = true → max_processing_jobs (cfg s) <= L)%nat.
  Lemma in_limit_mstep L e s s' :
    (lim e <= L)%nat → in_limit L s → mstep e s s' → in_limit L s'.
  Proof.
    intros HL [H1 H2] Hm.
    assert (∀ (l : list string) id, (length (filter (λ y, y ≠ id) l) <= length l)%nat) as Hf.
    { intros l id. apply filter_length. }
    assert (length (qlist (sw s') Running) <= length (qlist (sw s) Running) ∨
            length (qlist (sw s') Running) = S (length (qlist (sw s) Running)) ∧
            length (qlist (sw s) Running) < L)%nat as HR.
    { destruct Hm as [w w' c ts a rs Hst Hq Hk Hl|w c c' ts rs|w c rs|w w1 c ts rs j ec -> Hw|
        w c ts rs j ec ex -> Hs Ho|w c ts rs id j|w c ts rs id j -> Hs Hd
        |w c ts rs l id j He El Hs Hr Hlim j'|w c ts rs i t u|w c ts rs i t u|w c ts rs i t u|w c ts rs i t u
        |w c ts rs i t u|w c c' ts a rs]; cbn [sw alive cfg] in *.
      - left. by rewrite (Hq Running).
      - auto. - auto.
      - left. rewrite qlist_do_enqueue, bool_decide_false by done.
        destruct (stored w (jid j)); [|by subst]. destruct Hw as (_ & _ & ->).
        destruct (override_data ec); [by rewrite qlist_put|done].
      - left. by rewrite qlist_put.
      - left. rewrite qlist_rem, bool_decide_false by done. by rewrite qlist_save.
      - left. unfold do_re_enqueue. rewrite qlist_push, bool_decide_false by done.
        rewrite qlist_save, qlist_tick, qlist_rem. destruct (bool_decide_reflect (Running = jstatus (ctx j))) as [E|].
        + rewrite <-E. apply Hf.
        + done.
      - right. assert (qlist (w_save (w_tick (w_tick w)) j') Queued = l ++ [id]) as El' by by rewrite qlist_save.
        rewrite (qlist_pick name _ l id Running El'). cbn. rewrite qlist_save, !qlist_tick.
        specialize (H2 eq_refl). split; [done|]. lia.
      - left. by rewrite qlist_push.
      - left. done. - left. done. - left. done.
      - left. unfold do_tail, do_verdict. destruct (judge prof sched clock (reads w) (t_job t) u) as [k v].
        cbn [fst snd]. assert (∀ k s, qlist (w_reads w k) s = qlist w s) as Hw by done.
        destruct v as [nj|nj|nj|]; [|unfold do_fail|unfold do_finish|done].
        + unfold do_re_enqueue. rewrite qlist_push, bool_decide_false by done.
          rewrite qlist_save, qlist_tick, qlist_rem, !Hw.
          destruct (bool_decide_reflect (Running = jstatus (ctx nj))) as [E|]; [|done].
          rewrite <-E. apply Hf.
        + rewrite qlist_push, bool_decide_false by done. rewrite qlist_rem, bool_decide_true by done.
          rewrite qlist_save, qlist_tick, !Hw. apply Hf.
        + rewrite qlist_push, bool_decide_false by done. rewrite qlist_save, qlist_tick.
          rewrite qlist_rem, bool_decide_true, !Hw by done. apply Hf.
      - left. done. }
    split; [lia|]. destruct Hm; cbn in *; subst; cbn in *; try done; auto.
  Qed.

  Lemma in_limit_mono L L' s : (L <= L')%nat → in_limit L s → in_limit L' s.
  Proof. intros HL [H1 H2]. split; [lia|]. intros Ha. specialize (H2 Ha). lia. Qed.
  Lemma in_limit_after es : ok_hist initial es → in_limit (limit_of es) (after es).
  Proof.
    induction es as [|e es IH] using rev_ind; intros Hok.
    { split; [apply le_n|done]. }
    apply ok_hist_app in Hok as [Hok [He _]]. specialize (IH Hok).
    unfold after. rewrite go_snoc, limit_of_snoc.
    assert (msteps e (after es) (step (after es) e).1) as Hm.
    { destruct e; apply sys_step_micro; done. }
    assert (∀ s s' : sys, msteps e s s' → in_limit (limit_of es `max` lim e) s →
      in_limit (limit_of es `max` lim e) s') as HH.
    { intros s s' H. induction H as [|a b c H1 H2 IH']; [done|]. intros Hi. apply IH'.
      eapply in_limit_mstep; [|exact Hi|exact H1]. lia. }
    eapply HH; [exact Hm|]. eapply in_limit_mono; [|exact IH]. lia.
  Qed.
  Lemma limit_respected es :
    ok_hist initial es →
    (length (tasks (after es)) <= length (qlist (sw (after es)) Running) ∧
     length (qlist (sw (after es)) Running) <= limit_of es)%nat.
  Proof.
    intros Hok. split; [by apply all_at_tasks_le, all_at_after|]. by apply in_limit_after.
  Qed.

  (** *** Ids that cannot run *)
  Definition asleep (p : @pstate M) : Prop :=
    match p with PAbsent | PDone _ | PLimbo _ => True | _ => False end.
  Lemma asleep_stays s id p es :
    all_at s → ok_hist s es → at_ s id p → asleep p → Forall (λ e, ¬ revives id e) es →
    runs_of id (go s es) = runs_of id s ∧ ∃ p', at_ (go s es) id p' ∧ asleep p'.
  Proof.
    intros Ha Hok Hp Hs HE.
    destruct (life_ind prof sched name clock (λ e, ¬ revives id e)
      (λ _ p rs, asleep p ∧ rs = runs_of id s) id s es p) as (p' & H1 & H2 & H3); try done; [|eauto].
    intros e k q new k' q' rs He [Hq ->] Hst.
    destruct Hst; cbn in *; subst; try done; try (by rewrite app_nil_r); cbn in *; try tauto.
  Qed.
  (** A canceled (or otherwise done) id stays as it is. *)
  Lemma done_stays s id j es :
    all_at s → ok_hist s es → at_ s id (PDone j) → Forall (λ e, ¬ revives id e) es →
    runs_of id (go s es) = runs_of id s ∧ at_ (go s es) id (PDone j).
  Proof.
    intros Ha Hok Hp HE.
    destruct (life_ind prof sched name clock (λ e, ¬ revives id e)
      (λ _ p rs, p = PDone j ∧ rs = runs_of id s) id s es (PDone j)) as (p' & H1 & -> & H3); try done.
    intros e k q new k' q' rs He [-> ->] Hst.
    inversion Hst; cbn in *; subst; try done; try (by rewrite app_nil_r); cbn in *; try tauto.
    naive_solver.
  Qed.

  (** *** The next execution *)
  Definition fresh_with (P : job M → Prop) (p : @pstate M) : Prop :=
    match p with
    | PQueued j | PLimbo j => P j
    | PTask t => P (t_job t) ∧ (t_phase t = Spawned ∨ t_phase t = Hooked)
    | _ => True
    end.
  Lemma next_run_with (P : job M → Prop) s id p es :
    (∀ j t, P j → P (prc j t)) → (∀ j, P j → P (bump j)) →
    (∀ j t, P j → P (can j t)) → (∀ j t, P j → P (enq j t)) →
    all_at s → ok_hist s es → at_ s id p → 
    match p with PDone j => P j | PAbsent | POrphan _ => False | _ => fresh_with P p end →
    Forall (λ e, ¬ submits id e) es →
    runs_of id (go s es) = runs_of id s ∨
    ∃ j rest, runs_of id (go s es) = runs_of id s ++ j :: rest ∧ P j.
  Proof.
    intros HPp HPb HPc HPe Ha Hok Hp Hf HE.
    set (J := λ (k : nat) (p : @pstate M) rs,
      rs = runs_of id s ∧ match p with
        | PAbsent => False | PDone j => P j | POrphan _ => True | _ => fresh_with P p end ∨
      ∃ j rest, rs = runs_of id s ++ j :: rest ∧ P j).
    destruct (life_ind prof sched name clock (λ e, ¬ submits id e) J id s es p) as (p' & H1 & H2);
      try done.
    2:{ left. split; [done|]. destruct p; done. }
    2:{ destruct H2 as [[-> _]|H2]; eauto. }
    clear -HPp HPb HPc HPe. intros e k q new k' q' rs He [[-> Hq]|(j & rest & -> & Hj)] Hst.
    2:{ right. exists j, (rest ++ new). split; [|done]. by rewrite <-app_assoc. }
    destruct Hst; cbn in *; subst; cbn in He; try tauto; rewrite ?app_nil_r.
    - left. split; [done|exact Hq].
    - left. split; [done|]. by destruct H0 as [->| ->]; cbn in Hq; apply HPc.
    - left. split; [done|]. by apply HPe.
    - left. split; [done|]. split; [apply HPp, Hq|]. auto.
    - left. split; [done|]. split; [apply Hq|]. auto.
    - right. eexists _, []. split; [done|]. apply HPb, Hq.
    - destruct Hq as [_ [?|?]]; congruence.
    - destruct Hq as [_ [?|?]]; congruence.
    - destruct Hq as [_ [?|?]]; congruence.
    - destruct Hq as [_ [?|?]]; congruence.
    - destruct Hq as [_ [?|?]]; congruence.
    - left. done.
  Qed.

  (** *** Status changes *)
  Definition pstat (p : @pstate M) : option status :=
    match p with
    | PAbsent => None
    | PQueued _ | PLimbo _ => Some Queued
    | PTask _ | POrphan _ => Some Running
    | PDone j => Some (jstatus (ctx j))
    end.
  Definition pdone (p : @pstate M) : Prop :=
    match p with PDone j => is_done j = true | _ => True end.
  Lemma at_pstat s id p : at_ s id p → status_of s id = pstat p ∧ pdone p.
  Proof.
    unfold status_of. destruct p; cbn; intros H; destruct_and?;
      match goal with H : stored (sw s) id = _ |- _ => rewrite H end; cbn; try (split; [congruence|done]).
    unfold task_ok in *. destruct_and?. split; [congruence|done].
  Qed.
  Definition chg (e : event M) (o o' : option status) : Prop :=
    legal o o' ∧
    match e with
    | EvEnqueue _ _ | EvRetry _ => o' = Some Queued ∧ o ≠ Some Queued
    | EvCancel _ => o' = Some Canceled
    | EvTick | EvStart => o' = Some Running
    | EvTask _ _ => o = Some Running
    | _ => False
    end.
  Lemma chg_once e o1 o2 o3 : chg e o1 o2 → chg e o2 o3 → False.
  Proof.
    unfold chg. intros H1 H2. destruct o1 as [[]|], o2 as [[]|], o3 as [[]|]; cbn in *; try tauto;
      destruct e; intuition congruence.
  Qed.
  Lemma pstep_chg id e k p new k' p' :
    pstep id e k p new k' p' → pdone p → pdone p' ∧ (pstat p' = pstat p ∨ chg e (pstat p) (pstat p')).
  Proof.
    intros Hst Hd.
    assert (∀ (j : job M), is_done j = true → legal (Some (jstatus (ctx j))) (Some Queued)) as Hl.
    { intros j Hj. unfold is_done in Hj. by destruct (jstatus (ctx j)). }
    assert (∀ (j : job M), is_done j = true → Some (jstatus (ctx j)) ≠ Some Queued) as Hn.
    { intros j Hj. unfold is_done in Hj. by destruct (jstatus (ctx j)). }
    destruct Hst; cbn in *; subst; cbn; try (by auto).
    - split; [done|]. right. destruct H1 as [->|(j0 & -> & _)]; cbn in *.
      + done.
      + split; [by apply Hl|]. split; [done|by apply Hn].
    - split; [|left; congruence]. unfold is_done in *. cbn. by rewrite H3.
    - split; [done|]. right. split; [by apply Hl|]. split; [done|by apply Hn].
    - split; [done|]. right. by destruct H0 as [->| ->].
    - split; [done|]. right. split; [by apply Hl|]. split; [done|by apply Hn].
    - split; [done|]. right. by destruct H; subst.
    - split; [done|]. by right.
    - split; [done|]. by right.
    - split; [done|]. by right.
  Qed.
  Lemma psteps_chg id e k p new k' p' :
    psteps prof sched clock id e k p new k' p' → pdone p →
    pstat p' = pstat p ∨ chg e (pstat p) (pstat p').
  Proof.
    intros Hps. induction Hps as [k p|k p n1 k1 p1 n2 k2 p2 H1 H2 IH]; intros Hd; [by left|].
    destruct (pstep_chg _ _ _ _ _ _ _ H1 Hd) as [Hd1 Hc]. specialize (IH Hd1).
    destruct Hc as [E|Hc], IH as [E'|IH].
    - left. congruence.
    - right. by rewrite <-E.
    - right. by rewrite E'.
    - exfalso. by eapply chg_once.
  Qed.
  Lemma status_legal es e id :
    ok_hist initial (es ++ [e]) →
    status_of (after (es ++ [e])) id = status_of (after es) id ∨
    legal (status_of (after es) id) (status_of (after (es ++ [e])) id).
  Proof.
    intros Hok. apply ok_hist_app in Hok as [Hok [He _]].
    pose proof (all_at_after prof sched name clock es Hok) as Ha.
    destruct (life_step prof sched name clock _ e He Ha) as [Ha' Hs].
    destruct (Ha id) as [p Hp]. destruct (Hs id p Hp) as (p' & new & Hp' & Hps & _).
    assert (after (es ++ [e]) = (step (after es) e).1) as Eq by (unfold after; apply go_snoc).
    destruct (at_pstat _ _ _ Hp) as [E Hd]. destruct (at_pstat _ _ _ Hp') as [E' _].
    change (go initial es) with (after es) in E'. rewrite Eq, E, E'.
    destruct (psteps_chg _ _ _ _ _ _ _ Hps Hd) as [->|[? _]]; auto.
  Qed.

  (** *** run_count *)
  Definition counted (n : nat) (p : @pstate M) : Prop :=
    match p with
    | PAbsent => False
    | PQueued j | PLimbo j | PDone j => run_count (ctx j) = n
    | PTask t =>
        match t_phase t with
        | Spawned | Hooked => run_count (ctx (t_job t)) = n ∧ run_count (ctx (t_orig t)) = n
        | InUser | AfterHook => run_count (ctx (t_job t)) = n ∧ S (run_count (ctx (t_orig t))) = n
        end
    | POrphan j => run_count (ctx j) = n ∨ S (run_count (ctx j)) = n
    end.
  Lemma tick_of_run_count k (j nj : job M) :
    snd (tick_of prof sched clock k j) = Some (Some nj) → run_count (ctx nj) = run_count (ctx j).
  Proof.
    unfold tick_of. destruct (jtype (ctx j)); cbn; try done. destruct (sched expression); cbn; [|done].
    destruct (o _); [destruct (i32_norm _ _)|]; cbn; try done;
      destruct (_ || _); intros [= <-]; done.
  Qed.
  Lemma judge_run_count k (j : job M) u k1 v :
    judge prof sched clock k j u = (k1, v) →
    match v with VRequeue nj | VFailed nj | VFinished nj => run_count (ctx nj) = run_count (ctx j)
               | VPanic => True end.
  Proof.
    assert (∀ k (j : job M) b k1 v, finish_of prof sched clock k j b = (k1, v) →
      match v with VRequeue nj | VFailed nj | VFinished nj => run_count (ctx nj) = run_count (ctx j)
               | VPanic => True end) as Hf.
    { clear. intros k j b k1 v. unfold finish_of. intros [= <- <-].
      destruct (snd (tick_of prof sched clock k j)) as [[nj|]|] eqn:E; [by eapply tick_of_run_count| |done].
      by destruct b. }
    unfold judge. destruct (jretry (ctx j)) as [r|]; [|apply Hf].
    destruct (retry_of prof clock k r (ur_retry u)) as [k' [[r' [t|]]|]].
    - by intros [= <- <-].
    - intros H. apply Hf in H. destruct v; done.
    - by intros [= <- <-].
  Qed.
  Lemma counted_step id e k p new k' p' n :
    ¬ submits id e → counted n p → pstep id e k p new k' p' → counted (n + length new) p'.
  Proof.
    intros He Hc Hst.
    destruct Hst; cbn in *; subst; cbn in *; rewrite ?Nat.add_0_r; try tauto; try done.
    - destruct H0 as [->| ->]; done.
    - rewrite H0 in Hc. done.
    - rewrite H0 in Hc. destruct Hc. lia.
    - rewrite H0 in Hc. done.
    - rewrite H0 in Hc. destruct Hc as [Hc _]. pose proof (judge_run_count _ _ _ _ _ H1) as E. cbn in E. congruence.
    - rewrite H0 in Hc. destruct Hc as [Hc _]. pose proof (judge_run_count _ _ _ _ _ H1) as E. cbn in E. congruence.
    - rewrite H0 in Hc. destruct Hc as [Hc _]. pose proof (judge_run_count _ _ _ _ _ H1) as E. cbn in E. congruence.
    - rewrite H0 in Hc. destruct Hc. auto.
    - destruct (t_phase t), Hc; auto.
  Qed.

  (** The state of an id right after it was submitted. *)
  Lemma at_submitted s j ec :
    all_at s → ok_event s (EvEnqueue j ec) → alive s = true →
    stored (sw s) (jid j) = None ∨
      (∃ ex, stored (sw s) (jid j) = Some ex ∧ done_status (jstatus (ctx ex)) ∧ re_run ec = true) →
    ∃ t, at_ (step s (EvEnqueue j ec)).1 (jid j) (PQueued (norm_job (enq j t))) ∧
         runs_of (jid j) (step s (EvEnqueue j ec)).1 = runs_of (jid j) s.
  Proof.
    intros Ha Hok Hal Hs.
    pose proof (micro_enqueue prof sched name clock s j ec) as Hm.
    destruct (Ha (jid j)) as [p Hp].
    destruct (life_mstep prof sched name clock s _ _ Ha Hok Hm (jid j) p Hp) as (p' & new & Hp' & _ & _).
    exists (ms_of (clock (reads (sw s)))).
    assert (stored (sw (step s (EvEnqueue j ec)).1) (jid j) = Some (norm_job (enq j (ms_of (clock (reads (sw s))))))
      ∧ jid j ∈ qlist (sw (step s (EvEnqueue j ec)).1) Queued) as [E1 E2].
    { destruct Hs as [Hs|(ex & Hs & Hd & Hr)].
      - split; rewrite step_enqueue by done; cbn [fst sw]; unfold do_run; rewrite Hs.
        + by rewrite stored_do_enqueue, bool_decide_true.
        + rewrite qlist_do_enqueue, bool_decide_true by done. set_solver.
      - split; rewrite step_enqueue by done; cbn [fst sw]; unfold do_run; rewrite Hs.
        + apply is_done_iff in Hd. rewrite Hr, Hd. cbn [andb]. rewrite stored_do_enqueue, bool_decide_true by done.
          by destruct (override_data ec && negb (is_running ex)).
        + apply is_done_iff in Hd. rewrite Hr, Hd. cbn [andb]. rewrite qlist_do_enqueue, bool_decide_true by done. set_solver. }
    destruct (at_waiting _ _ _ _ Hp' E2) as [j' ->].
    assert (j' = norm_job (enq j (ms_of (clock (reads (sw s)))))) as ->.
    { cbn in Hp'. destruct_and?. congruence. }
    split; [done|]. rewrite step_enqueue by done. done.
  Qed.

  Lemma run_count_runs es1 j ec es2 j' :
    let es := es1 ++ EvEnqueue j ec :: es2 in
    let n := (length (runs_of (jid j) (after es)) - length (runs_of (jid j) (after es1)))%nat in
    ok_hist initial es → alive (after es1) = true → run_count (ctx j) = 0%nat →
    stored (sw (after es1)) (jid j) = None ∨
      (∃ ex, stored (sw (after es1)) (jid j) = Some ex ∧ done_status (jstatus (ctx ex)) ∧ re_run ec = true) →
    Forall (λ e, ¬ submits (jid j) e) es2 →
    stored (sw (after es)) (jid j) = Some j' →
    (jstatus (ctx j') ≠ Running → run_count (ctx j') = n) ∧
    (jstatus (ctx j') = Running → run_count (ctx j') = n ∨ S (run_count (ctx j')) = n) ∧
    (∀ t, t ∈ tasks (after es) → tid t = jid j →
       if decide (t_phase t = Spawned ∨ t_phase t = Hooked) then run_count (ctx j') = n
       else S (run_count (ctx j')) = n).
  Proof.
    intros es n Hok Hal H0 Hs HE Hj'. subst es.
    apply ok_hist_app in Hok as [Hok1 [He Hok2]].
    change (sys_run prof sched name h initial es1) with (after es1) in *.
    pose proof (all_at_after prof sched name clock es1 Hok1) as Ha.
    destruct (at_submitted _ _ _ Ha He Hal Hs) as (t0 & Hp & Hr).
    destruct (life_step prof sched name clock _ _ He Ha) as [Ha' _].
    set (s1 := (step (after es1) (EvEnqueue j ec)).1) in *.
    assert (after (es1 ++ EvEnqueue j ec :: es2) = go s1 es2) as E.
    { unfold after. rewrite go_app. done. }
    destruct (life_ind prof sched name clock (λ e, ¬ submits (jid j) e)
      (λ _ p rs, counted (length rs - length (runs_of (jid j) (after es1))) p ∧
                 (length (runs_of (jid j) (after es1)) <= length rs)%nat) (jid j) s1 es2
                 (PQueued (norm_job (enq j t0)))) as (p' & Hp' & Hc & Hle); try done.
    { intros e k p new k' p' rs Hne [Hc Hle] Hst. pose proof (counted_step _ _ _ _ _ _ _ _ Hne Hc Hst) as Hc'.
      rewrite app_length. split; [|lia].
      replace (length rs + length new - _)%nat with (length rs - length (runs_of (jid j) (after es1)) + length new)%nat
        by lia. done. }
    { rewrite Hr. split; [|done]. rewrite Nat.sub_diag. done. }
    rewrite <-E in Hp', Hc. fold n in Hc.
    assert (∀ t, t ∈ tasks (after (es1 ++ EvEnqueue j ec :: es2)) → tid t = jid j → p' = PTask t) as Ht.
    { intros t Ht Htid. assert (t ∈ tasks_of (jid j) (after (es1 ++ EvEnqueue j ec :: es2))) as Hin.
      { apply elem_of_list_filter. done. }
      assert (tasks_of (jid j) (after (es1 ++ EvEnqueue j ec :: es2)) =
        match p' with PTask t => [t] | _ => [] end) as HT by (destruct p'; cbn in Hp'; tauto).
      rewrite HT in Hin. destruct p'; try (by apply elem_of_nil in Hin).
      apply elem_of_list_singleton in Hin. congruence. }
    assert (∀ (j : job M), is_done j = true → jstatus (ctx j) = Running → False) as Hdr.
    { intros a Ha1 Ha2. unfold is_done in Ha1. by rewrite Ha2 in Ha1. }
    destruct p' as [|q|q|t|q|q]; cbn in Hp', Hc; destruct_and?.
    - done.
    - assert (j' = q) as -> by congruence. split; [done|]. split; [congruence|]. intros t Hi1 Hi2. by specialize (Ht t Hi1 Hi2).
    - assert (j' = q) as -> by congruence. split; [done|]. split; [congruence|]. intros t Hi1 Hi2. by specialize (Ht t Hi1 Hi2).
    - assert (j' = t_orig t) as -> by congruence.
      match goal with H : task_ok t |- _ => destruct H as (_ & Hrun & _) end.
      split; [congruence|]. split.
      + intros _. destruct (t_phase t); tauto.
      + intros t' Hi1 Hi2. specialize (Ht t' Hi1 Hi2). injection Ht as <-.
        destruct (t_phase t) eqn:Eph; cbn in *; repeat destruct (decide _); try tauto; intuition congruence.
    - assert (j' = q) as -> by congruence. split; [congruence|]. split; [done|]. intros t Hi1 Hi2. by specialize (Ht t Hi1 Hi2).
    - assert (j' = q) as -> by congruence. split; [done|]. split; [intros; exfalso; eauto|]. intros t Hi1 Hi2. by specialize (Ht t Hi1 Hi2).
  Qed.
End props.
