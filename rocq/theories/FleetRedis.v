(** Several processes on one Redis do what they do on one in-memory store. *)
From Verif Require Import Spec JsonFacts BackendFacts RedisFacts WorldFacts MicroFacts LifeFacts HistFacts SubmitFacts LifeProps
  SpecFleetRedis WorkersFacts FleetFair FleetEver FleetRest.
Open Scope Z_scope.

Section facts.
  Context {M : Type} `{SM : Serde M} {SO : SerdeOk M}.
  Context (prof : nat → profile).
  Context (sched : nat → string → option (time → option time)).
  Context (name : string).
  Context (clock : nat → nat → time).
  Notation r_list := (r_list name).
  Notation r_record := (@r_record M SM).
  Notation stored := (@stored M SM).
  Notation qlist := (qlist name).

  Definition same_fleet (f : fleet M) (r : rfleet M) : Prop :=
    redis_rel (list_key name) (f_world f) (rf_world r) ∧ rf_members r = f_members f ∧ rf_runs r = f_runs f.
  Lemma fleet_step_same f r ie : same_fleet f r →
    same_fleet (fleet_step prof sched name clock f ie) (rfleet_step prof sched name clock r ie).
  Proof.
    intros (Hw & Hm & Hr). unfold fleet_step, rfleet_step. rewrite Hm. destruct (f_members f !! ie.1) as [m|]; [|by split].
    destruct (step_same (prof ie.1) (sched ie.1) name (clock ie.1) (seen_by f m)
      (Sys (rf_world r) (m_cfg m) (m_tasks m) (m_alive m) (rf_runs r)) ie.2) as [_ (H1 & H2 & H3 & H4 & H5)].
    { by split. }
    split; [exact H1|]. cbn [rf_members f_members rf_runs f_runs]. by rewrite H2, H3, H4, H5.
  Qed.
  Lemma fleet_run_same es f r : same_fleet f r →
    same_fleet (fleet_run prof sched name clock f es) (rfleet_run prof sched name clock r es).
  Proof. revert f r. induction es as [|e es IH]; intros f r H; [done|]. cbn. by apply IH, fleet_step_same. Qed.
  Lemma fleet_same_view N (es : list (nat * event M)) :
    let f := fleet_after prof sched name clock N es in
    let r := rf_after prof sched name clock N es in
    rf_members r = f_members f ∧ rf_runs r = f_runs f ∧
    (∀ x, r_list (rf_world r) x = qlist (f_world f) x) ∧ (∀ id, r_record (rf_world r) id = stored (f_world f) id).
  Proof.
    cbv zeta.
    assert (same_fleet (fleet_after prof sched name clock N es) (rf_after prof sched name clock N es)) as Hs.
    { apply fleet_run_same. split; [apply redis_rel_empty|done]. }
    revert Hs. generalize (fleet_after prof sched name clock N es) as f. generalize (rf_after prof sched name clock N es) as r.
    intros r f ((Hq & Hh & _) & H1 & H2).
    split; [done|]. split; [done|]. split.
    - intros x. specialize (Hq (format_queue_name name x) ltac:(by exists x)). unfold SpecRedisLive.r_list, Backend.rlist in *.
      unfold Spec.qlist. unfold ql in Hq. destruct (keys (rf_world r) !! _) as [[l|m]|]; congruence.
    - intros id. specialize (Hh _ (list_key_storage name)). unfold SpecRedisLive.r_record, Spec.stored.
      destruct (keys (rf_world r) !! STORAGE_HASH) as [[l|m]|]; [done| |]; by rewrite Hh.
  Qed.

  (** Histories. *)
  Lemma rf_ok_fleet N es : rf_ok prof sched name clock N es → ok_fleet prof sched name clock (fleet_init N) es.
  Proof.
    induction es as [|ie es IH] using rev_ind; [done|]. intros H. apply ok_fleet_app. split.
    - apply IH. intros k x Hk. specialize (H k x (lookup_app_l_Some _ _ _ _ Hk)).
      apply lookup_lt_Some in Hk. by rewrite take_app_le in H by lia.
    - cbn. split; [|done]. specialize (H (length es) ie ltac:(by apply list_lookup_middle)). rewrite take_app in H.
      destruct (fleet_same_view N es) as (_ & _ & _ & E).
      assert (∀ e, rf_ok_event (rf_world (rf_after prof sched name clock N es)) e →
        ok_fleet_event (f_world (fleet_after prof sched name clock N es)) e) as He; [|exact (He _ H)].
      intros e. destruct e; try done. cbn. intros [?|(ex & Hx & ?)]; [by left|right]. exists ex. by rewrite <-E.
  Qed.
  Lemma rf_no_overlap N es : rf_ok prof sched name clock N es → NoDup (map tid (rf_tasks (rf_after prof sched name clock N es))).
  Proof.
    intros H. unfold rf_tasks. destruct (fleet_same_view N es) as (-> & _).
    exact (fleet_no_overlap prof sched name clock N es (rf_ok_fleet N es H)).
  Qed.
  Lemma rf_limit N es : rf_ok prof sched name clock N es →
    let f := rf_after prof sched name clock N es in
    (length (rf_tasks f) <= length (r_list (rf_world f) Running) <= limit_of (map snd es))%nat.
  Proof.
    intros H. cbv zeta. unfold rf_tasks. destruct (fleet_same_view N es) as (-> & _ & E & _). rewrite E.
    exact (fleet_limit_tasks prof sched name clock N es (rf_ok_fleet N es H)).
  Qed.
  Lemma rf_status N es ie id : rf_ok prof sched name clock N (es ++ [ie]) →
    let status f := (λ j : job M, jstatus (ctx j)) <$> r_record (rf_world f) id in
    let before := status (rf_after prof sched name clock N es) in
    let now := status (rf_after prof sched name clock N (es ++ [ie])) in
    now = before ∨ legal before now.
  Proof.
    intros H. cbv zeta. destruct (fleet_same_view N es) as (_ & _ & _ & E).
    destruct (fleet_same_view N (es ++ [ie])) as (_ & _ & _ & E'). rewrite E, E'. destruct ie as [i e].
    exact (fleet_status prof sched name clock N es i e id (rf_ok_fleet N _ H)).
  Qed.

  Section run.
    Context (N : nat) (ev : nat → nat * event M).
    Notation r n := (rf_moment prof sched name clock N ev n).
    Notation f n := (f_moment prof sched name clock N ev n).
    Lemma fv n : rf_members (r n) = f_members (f n) ∧ rf_runs (r n) = f_runs (f n) ∧
      (∀ x, r_list (rf_world (r n)) x = qlist (f_world (f n)) x) ∧ (∀ id, r_record (rf_world (r n)) id = stored (f_world (f n)) id).
    Proof. exact (fleet_same_view N (map ev (seq 0 n))). Qed.
    Lemma fv_members n : rf_members (r n) = f_members (f n). Proof. apply fv. Qed.
    Lemma fv_runs n : rf_runs (r n) = f_runs (f n). Proof. apply fv. Qed.
    Lemma fv_list n x : r_list (rf_world (r n)) x = qlist (f_world (f n)) x. Proof. apply fv. Qed.
    Lemma fv_record n id : r_record (rf_world (r n)) id = stored (f_world (f n)) id. Proof. apply fv. Qed.
    Lemma fv_runs_of n id : rf_runs_of id (r n) = f_runs_of id (f n).
    Proof. unfold rf_runs_of, f_runs_of. by rewrite fv_runs. Qed.
    Lemma fv_tasks n : rf_tasks (r n) = all_tasks (f n).
    Proof. unfold rf_tasks, all_tasks. by rewrite fv_members. Qed.
    Lemma fv_lives n i : rf_lives (r n) i ↔ lives (f n) i.
    Proof. unfold rf_lives, lives. by rewrite fv_members. Qed.
    Lemma fv_lost n : rf_lost name (r n) = lost name (f n).
    Proof. unfold rf_lost, lost. by rewrite fv_list, fv_tasks. Qed.
    Lemma fv_to_do n : rf_to_do name (r n) = to_do name (f n).
    Proof. unfold rf_to_do, to_do. by rewrite fv_list, fv_tasks. Qed.
    Lemma fv_work n : rf_work_left name (r n) = f_work_left name (f n).
    Proof.
      unfold rf_work_left, f_work_left. rewrite fv_to_do.
      assert (∀ l, sum_list_with (λ id, match r_record (rf_world (r n)) id with Some j => S (tries_left j) | None => O end) l =
        sum_list_with (f_executions_left (f n)) l) as H; [|apply H].
      intros l. induction l as [|k l IH]; [done|]. cbn [sum_list_with]. rewrite IH. unfold f_executions_left. by rewrite fv_record.
    Qed.
    Lemma fv_healthy n0 : rf_healthy prof sched name clock N ev n0 → f_healthy prof sched name clock N ev n0.
    Proof.
      intros (H1 & H2 & H3). split; [|split].
      - intros n. induction n as [|n IH]; [done|]. rewrite seq_S, map_app. apply ok_fleet_app. split; [exact IH|].
        cbn. split; [|done]. specialize (H1 n). unfold f_moment in *.
        assert (∀ e, rf_ok_event (rf_world (r n)) e → ok_fleet_event (f_world (f n)) e) as H; [|exact (H _ H1)].
        intros e. destruct e; try done. cbn. intros [?|(ex & Hx & ?)]; [by left|right]. exists ex. by rewrite <-fv_record.
      - intros n i Hn. rewrite <-!fv_lives. by apply H2.
      - intros n i m Hn. rewrite <-fv_members, <-fv_lost. by apply H3.
    Qed.
    Lemma fv_healthy_back n0 : f_healthy prof sched name clock N ev n0 → rf_healthy prof sched name clock N ev n0.
    Proof.
      intros (H1 & H2 & H3). split; [|split].
      - intros n. specialize (H1 (S n)). rewrite seq_S, map_app in H1. apply ok_fleet_app in H1 as [_ H1]. cbn in H1.
        destruct H1 as [H1 _].
        assert (∀ e, ok_fleet_event (f_world (f n)) e → rf_ok_event (rf_world (r n)) e) as H; [|exact (H _ H1)].
        intros e. destruct e; try done. cbn. intros [?|(ex & Hx & ?)]; [by left|right]. exists ex. by rewrite fv_record.
      - intros n i Hn. rewrite !fv_lives. by apply H2.
      - intros n i m Hn. rewrite fv_members, fv_lost. by apply H3.
    Qed.
    Lemma fv_ticking_back : f_ticking prof sched name clock N ev → rf_ticking prof sched name clock N ev.
    Proof. intros H n. destruct (H n) as (k & i & H1 & H2 & H3). exists k, i. by rewrite fv_lives. Qed.
    Lemma fv_polling_back n0 : f_polling prof sched name clock N ev n0 → rf_polling prof sched name clock N ev n0.
    Proof.
      intros H n i m t Hn Em Ht. rewrite fv_members in Em. destruct (H n i m t Hn Em Ht) as (k & x & u & m' & t' & H1 & H2 & H3 & H4).
      exists k, x, u, m', t'. by rewrite fv_members.
    Qed.
    Lemma fv_ticking : rf_ticking prof sched name clock N ev → f_ticking prof sched name clock N ev.
    Proof. intros H n. destruct (H n) as (k & i & H1 & H2 & H3). exists k, i. by rewrite <-fv_lives. Qed.
    Lemma fv_polling n0 : rf_polling prof sched name clock N ev n0 → f_polling prof sched name clock N ev n0.
    Proof.
      intros H n i m t Hn Em Ht. rewrite <-fv_members in Em. destruct (H n i m t Hn Em Ht) as (k & x & u & m' & t' & H1 & H2 & H3 & H4).
      exists k, x, u, m', t'. by rewrite <-fv_members.
    Qed.
  End run.

  Lemma rf_progress N ev n0 a id j :
    rf_healthy prof sched name clock N ev n0 → rf_ticking prof sched name clock N ev → rf_polling prof sched name clock N ev n0 →
    (n0 <= a)%nat → id ∈ r_list (rf_world (rf_moment prof sched name clock N ev a)) Queued →
    r_record (rf_world (rf_moment prof sched name clock N ev a)) id = Some j →
    (∃ k0, ∀ i k, (k0 <= k)%nat → due j (clock i k)) →
    (∀ n, (a <= n)%nat → ¬ submits id (ev n).2 ∧ (ev n).2 ≠ EvCancel id) →
    (∀ n, (a <= n)%nat → (ev n).2 = EvTick ∨ (ev n).2 = EvStart →
       (length (r_list (rf_world (rf_moment prof sched name clock N ev n)) Queued) <= 20)%nat) →
    ∃ k1 k2, (a <= k1 <= k2)%nat ∧
      (length (rf_runs_of id (rf_moment prof sched name clock N ev a)) < length (rf_runs_of id (rf_moment prof sched name clock N ev k1)))%nat ∧
      id ∉ map tid (rf_tasks (rf_moment prof sched name clock N ev k2)).
  Proof.
    intros H1 H2 H3 Ha. rewrite fv_list, fv_record. intros Hq Hj Hd Hs Hl.
    destruct (fleet_short prof name clock sched N ev n0 a id j (fv_healthy _ _ _ H1) (fv_ticking _ _ H2) (fv_polling _ _ _ H3) Ha Hq Hj Hd Hs)
      as (k1 & k2 & G1 & G2 & G3).
    { intros n Hn He. rewrite <-fv_list. by apply Hl. }
    exists k1, k2. by rewrite !fv_runs_of, fv_tasks.
  Qed.
  Lemma rf_rest N (ev : nat → nat * event M) n0 :
    rf_healthy prof sched name clock N ev n0 → rf_ticking prof sched name clock N ev → rf_polling prof sched name clock N ev n0 →
    (∀ n, (n0 <= n)%nat → f_no_new_work (ev n).2) →
    (∀ id j, id ∈ rf_to_do name (rf_moment prof sched name clock N ev n0) →
       r_record (rf_world (rf_moment prof sched name clock N ev n0)) id = Some j → ends_some_day j) →
    (∀ t, ∃ k0, ∀ i k, (k0 <= k)%nat → t < clock i k) →
    Z.of_nat (rf_work_left name (rf_moment prof sched name clock N ev n0)) <= i32_max →
    ∃ n1, (n0 <= n1)%nat ∧ ∀ n, (n1 <= n)%nat →
      r_list (rf_world (rf_moment prof sched name clock N ev n)) Queued = [] ∧
      rf_tasks (rf_moment prof sched name clock N ev n) = [] ∧
      r_list (rf_world (rf_moment prof sched name clock N ev n)) Running ≡ₚ rf_lost name (rf_moment prof sched name clock N ev n0) ∧
      rf_runs (rf_moment prof sched name clock N ev n) = rf_runs (rf_moment prof sched name clock N ev n1) ∧
      (∀ id, id ∈ rf_to_do name (rf_moment prof sched name clock N ev n0) →
         ∃ j, r_record (rf_world (rf_moment prof sched name clock N ev n)) id = Some j ∧
              (jstatus (ctx j) = Finished ∨ jstatus (ctx j) = Failed)) ∧
      (∀ id, id ∉ rf_to_do name (rf_moment prof sched name clock N ev n0) →
         r_record (rf_world (rf_moment prof sched name clock N ev n)) id = r_record (rf_world (rf_moment prof sched name clock N ev n0)) id).
  Proof.
    intros H1 H2 H3 Hw He Hc Hl. apply fv_healthy in H1. apply fv_ticking in H2. apply fv_polling in H3. rewrite fv_work in Hl.
    assert (∀ id j, id ∈ to_do name (f_moment prof sched name clock N ev n0) →
      stored (f_world (f_moment prof sched name clock N ev n0)) id = Some j → ends_some_day j) as He'.
    { intros id j. rewrite <-fv_to_do, <-fv_record. apply He. }
    destruct (R_rests prof sched name clock N ev n0 H1 H2 H3 Hw He'
      (R_come_due prof sched name clock N ev n0 H1 Hw He' Hc) Hl) as (n1 & Hn1 & H).
    exists n1. split; [done|]. intros n Hn. destruct (H n Hn) as (G1 & G2 & G3 & G4 & G5 & G6).
    rewrite !fv_list, fv_tasks, fv_lost, !fv_runs, fv_to_do. split; [done|]. split; [done|]. split; [done|]. split; [done|]. split.
    - intros id Hid. rewrite fv_record. specialize (G5 id Hid). unfold f_status_of in G5.
      destruct (stored (f_world (f_moment prof sched name clock N ev n)) id) as [j|]; cbn in G5; [|by destruct G5].
      exists j. split; [done|]. destruct G5 as [G5|G5]; injection G5 as G5; auto.
    - intros id Hid. rewrite !fv_record. by apply G6.
  Qed.
End facts.

Section again.
  Context {M : Type} `{SM : Serde M} {SO : SerdeOk M}.
  Context (prof : nat → profile).
  Context (sched : string → option (time → option time)).
  Context (name : string).
  Context (clock : nat → nat → time).
  Notation moment := (rf_moment prof (λ _, sched) name clock).
  Lemma rf_again N (ev : nat → nat * event M) n0 a id j :
    rf_healthy prof (λ _, sched) name clock N ev n0 → rf_ticking prof (λ _, sched) name clock N ev →
    rf_polling prof (λ _, sched) name clock N ev n0 →
    (n0 <= a)%nat → id ∈ r_list name (rf_world (moment N ev a)) Queued → r_record (rf_world (moment N ev a)) id = Some j →
    without_end sched j → (∀ t, ∃ k0, ∀ i k, (k0 <= k)%nat → t < clock i k) →
    (∀ n, (a <= n)%nat → ¬ submits id (ev n).2 ∧ (ev n).2 ≠ EvCancel id) →
    (∀ n, (a <= n)%nat → (ev n).2 = EvTick ∨ (ev n).2 = EvStart →
       (length (r_list name (rf_world (moment N ev n)) Queued) <= 20)%nat) →
    ∀ K, ∃ n, (a <= n)%nat ∧ (K <= length (rf_runs_of id (moment N ev n)))%nat.
  Proof.
    intros H1 H2 H3 Ha Hq Hj He Hc Hs Hl K. rewrite fv_list in Hq. rewrite fv_record in Hj.
    destruct (fleet_again prof name clock sched N ev n0 a id j (fv_healthy _ _ _ _ _ _ _ H1) (fv_ticking _ _ _ _ _ _ H2)
      (fv_polling _ _ _ _ _ _ _ H3) Ha Hq Hj He Hc Hs) with (K := K) as (n & Hn & HK).
    { intros n Hn Hx. rewrite <-fv_list. by apply Hl. }
    exists n. by rewrite fv_runs_of.
  Qed.
End again.
