(** Endless executions on Redis are those on the in-memory store. *)
From Verif Require Import Spec JsonFacts BackendFacts RedisFacts WorldFacts MicroFacts LifeFacts HistFacts SubmitFacts LifeProps
  SpecRedisLive CrashFacts LiveFacts ShortLive DrainFacts EverFacts.
Open Scope Z_scope.

Section facts.
  Context {M : Type} `{SM : Serde M} {SO : SerdeOk M}.
  Context (prof : profile).
  Context (sched : string → option (time → option time)).
  Context (name : string).
  Context (clock : nat → time).
  Notation r_list := (r_list name).
  Notation r_record := (@r_record M SM).
  Notation stored := (@stored M SM).
  Notation qlist := (qlist name).

  Lemma same_view (es : list (event M)) :
    let s := sys_run prof sched name (mem_h clock) (sys_init world_empty) es in
    let r := sys_run prof sched name (redis_h clock) (sys_init rworld_empty) es in
    cfg r = cfg s ∧ tasks r = tasks s ∧ alive r = alive s ∧ runs r = runs s ∧
    (∀ x, r_list (sw r) x = qlist (sw s) x) ∧ (∀ id, r_record (sw r) id = stored (sw s) id).
  Proof.
    cbv zeta.
    destruct (responses_same (M := M) prof sched name clock (sys_init world_empty) (sys_init rworld_empty) es) as [_ Hs].
    { split; [|done]. apply redis_rel_empty. }
    revert Hs. generalize (sys_run prof sched name (mem_h clock) (sys_init world_empty) es) as s.
    generalize (sys_run prof sched name (redis_h clock) (sys_init rworld_empty) es) as r.
    intros r s ((Hq & Hh & _) & H1 & H2 & H3 & H4).
    split; [done|]. split; [done|]. split; [done|]. split; [done|]. split.
    - intros x. specialize (Hq (format_queue_name name x) ltac:(by exists x)). unfold SpecRedisLive.r_list, Backend.rlist in *.
      unfold Spec.qlist. unfold ql in Hq. destruct (keys (sw r) !! _) as [[l|m]|]; congruence.
    - intros id. specialize (Hh _ (list_key_storage name)). unfold SpecRedisLive.r_record, Spec.stored.
      destruct (keys (sw r) !! STORAGE_HASH) as [[l|m]|]; [done| |]; by rewrite Hh.
  Qed.

  Section run.
    Context (ev : nat → event M).
    Notation r n := (r_moment prof sched name clock ev n).
    Notation s n := (moment prof sched name clock ev n).
    Lemma view n : cfg (r n) = cfg (s n) ∧ tasks (r n) = tasks (s n) ∧ alive (r n) = alive (s n) ∧ runs (r n) = runs (s n) ∧
      (∀ x, r_list (sw (r n)) x = qlist (sw (s n)) x) ∧ (∀ id, r_record (sw (r n)) id = stored (sw (s n)) id).
    Proof. exact (same_view (EvStart :: map ev (seq 0 n))). Qed.
    Lemma v_healthy : r_healthy prof sched name clock ev → healthy prof sched name clock ev.
    Proof.
      intros H n. destruct (H n) as (H1 & H2 & H3 & H4). destruct (view n) as (E1 & E2 & E3 & _). rewrite E1 in H4. rewrite E3 in H3.
      split; [done|]. split; [done|]. split; [done|]. apply plain_ok. constructor; [done|]. apply list.Forall_forall. intros e He.
      apply elem_of_list_fmap in He as (k & -> & _). by destruct (H k) as (_ & ? & _).
    Qed.
    Lemma v_polling : r_polling prof sched name clock ev → polling prof sched name clock ev.
    Proof.
      intros H n t Ht. destruct (view n) as (_ & E & _). rewrite <-E in Ht. destruct (H n t Ht) as (m & i & u & t' & H1 & H2 & H3 & H4).
      exists m, i, u, t'. destruct (view m) as (_ & E' & _). by rewrite E' in H3.
    Qed.
    Lemma v_runs n : runs (r n) = runs (s n). Proof. apply view. Qed.
    Lemma v_tasks n : tasks (r n) = tasks (s n). Proof. apply view. Qed.
    Lemma v_list n x : r_list (sw (r n)) x = qlist (sw (s n)) x. Proof. apply view. Qed.
    Lemma v_record n id : r_record (sw (r n)) id = stored (sw (s n)) id. Proof. apply view. Qed.
    Lemma v_runs_of n id : runs_of id (r n) = runs_of id (s n).
    Proof. unfold runs_of. by rewrite v_runs. Qed.
    Lemma v_tasks_of n id : tasks_of id (r n) = tasks_of id (s n).
    Proof. unfold tasks_of. by rewrite v_tasks. Qed.
    Lemma v_pending n : r_pending name (sw (r n)) = pending name (s n).
    Proof. unfold r_pending, pending. by rewrite !v_list. Qed.
    Lemma v_work n : r_work_left (M := M) name (sw (r n)) = work_left name (s n).
    Proof.
      unfold r_work_left, work_left, executions_left. rewrite v_pending.
      assert (∀ l, sum_list_with (λ id, match r_record (sw (r n)) id with Some j => S (tries_left j) | None => O end) l =
        sum_list_with (λ id, match stored (sw (s n)) id with Some j => S (tries_left j) | None => O end) l) as H; [|apply H].
      intros l. induction l as [|k l IH]; [done|]. cbn [sum_list_with]. by rewrite v_record, IH.
    Qed.

    Context (Hh : r_healthy prof sched name clock ev) (Ht : ticking ev) (Hp : r_polling prof sched name clock ev).
    Lemma r_progress n0 id j :
      id ∈ r_list (sw (r n0)) Queued → r_record (sw (r n0)) id = Some j →
      (∃ k0, ∀ k, (k0 <= k)%nat → due j (clock k)) →
      (∀ n, (n0 <= n)%nat → ¬ submits id (ev n) ∧ ev n ≠ EvCancel id) →
      (∀ n, (n0 <= n)%nat → ev n = EvTick → (length (r_list (sw (r n)) Queued) <= 20)%nat) →
      ∃ n1 n2, (n0 <= n1 <= n2)%nat ∧ (length (runs_of id (r n0)) < length (runs_of id (r n1)))%nat ∧ tasks_of id (r n2) = [].
    Proof.
      rewrite v_list, v_record. intros H1 H2 H3 H4 H5.
      destruct (short_fair prof sched name clock ev (v_healthy Hh) Ht (v_polling Hp) n0 id j H1 H2 H3 H4) as (n1 & n2 & G1 & G2 & G3).
      { intros n Hn. rewrite <-v_list. by apply H5. }
      exists n1, n2. by rewrite !v_runs_of, v_tasks_of.
    Qed.
    Lemma r_rest n0 :
      (∀ n, (n0 <= n)%nat → no_new_work (ev n)) →
      (∀ id j, id ∈ r_pending name (sw (r n0)) → r_record (sw (r n0)) id = Some j → ends_some_day j) →
      (∀ t, ∃ k0, ∀ k, (k0 <= k)%nat → t < clock k) →
      Z.of_nat (r_work_left (M := M) name (sw (r n0))) <= i32_max →
      ∃ n1, (n0 <= n1)%nat ∧ ∀ n, (n1 <= n)%nat →
        r_list (sw (r n)) Queued = [] ∧ r_list (sw (r n)) Running = [] ∧ tasks (r n) = [] ∧ runs (r n) = runs (r n1) ∧
        (∀ id, id ∈ r_pending name (sw (r n0)) → ∃ j, r_record (sw (r n)) id = Some j ∧
           (jstatus (ctx j) = Finished ∨ jstatus (ctx j) = Failed)).
    Proof.
      rewrite v_pending, v_work. intros H1 H2 H3 H4. assert (∀ id j, id ∈ pending name (s n0) → stored (sw (s n0)) id = Some j → ends_some_day j) as H2'.
      { intros id j. rewrite <-v_record. apply H2. }
      destruct (drains prof sched name clock ev (v_healthy Hh) Ht (v_polling Hp) n0 H1 H2') as (n1 & G1 & G2).
      { exact (come_due prof sched name clock ev n0 (v_healthy Hh) H1 H2' H3). }
      { done. }
      exists n1. split; [done|]. intros n Hn. destruct (G2 n Hn) as (I1 & I2 & I3 & I4 & I5).
      rewrite !v_list, v_tasks, !v_runs. split; [done|]. split; [done|]. split; [done|]. split; [done|].
      intros id Hid. specialize (I5 id Hid). unfold status_of in I5. rewrite v_record.
      destruct (stored (sw (s n)) id) as [j|]; [|by destruct I5]. exists j. split; [done|]. cbn in I5. by destruct I5 as [[= ?]|[= ?]]; [left|right].
    Qed.
    Lemma r_again n0 id j :
      time_goes_on clock →
      (∀ n, (n0 <= n)%nat → ¬ submits id (ev n) ∧ ev n ≠ EvCancel id) →
      (∀ n, (n0 <= n)%nat → ev n = EvTick → (length (r_list (sw (r n)) Queued) <= 20)%nat) →
      id ∈ r_list (sw (r n0)) Queued → r_record (sw (r n0)) id = Some j → without_end sched j →
      ∀ N, ∃ n, (n0 <= n)%nat ∧ (N <= length (runs_of id (r n)))%nat.
    Proof.
      rewrite v_list, v_record. intros H4 H5 H6 H7 H8 H9 N.
      destruct (ever_again prof sched name clock ev n0 id j (v_healthy Hh) Ht (v_polling Hp) H4 H5) with (N := N) as (n & G1 & G2); try done.
      { intros n Hn. rewrite <-v_list. by apply H6. }
      exists n. by rewrite v_runs_of.
    Qed.
  End run.
End facts.
