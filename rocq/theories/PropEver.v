(** A cron job without limits is executed again and again. *)
From Verif Require Import SpecEver HistFacts ApiFacts StarveFacts LiveFacts WorldFacts LifeFacts LifeProps PickFacts MicroFacts
  SpecDrain DrainFacts CrashFacts EverFacts Demo.
Open Scope Z_scope.

Section theorems.
  Context {M : Type} `{SM : Serde M} {SO : SerdeOk M}.
  Context (prof : profile).
  Context (sched : string → option (time → option time)).
  Context (name : string).
  Context (clock : nat → time).
  Notation moment := (moment prof sched name clock).
  Notation qlist := (qlist name).
  Notation stored := (@stored M SM).

  (** C106.  [ev] is any endless execution in which the queue stays alive, the timer fires again and again and
      tasks are polled again and again, time goes on, and no tick finds more than 20 waiting ids.  A waiting
      cron job without limits and without a retry rule, that is neither submitted again nor cancelled, is
      executed any number of times, whatever its user code returns. *)
  Theorem C106_again_partial (ev : nat → event M) n0 id j :
    healthy prof sched name clock ev → ticking ev → polling prof sched name clock ev → time_goes_on clock →
    (∀ n, (n0 <= n)%nat → ¬ submits id (ev n) ∧ ev n ≠ EvCancel id) →
    (∀ n, (n0 <= n)%nat → ev n = EvTick → (length (qlist (sw (moment ev n)) Queued) <= 20)%nat) →
    id ∈ qlist (sw (moment ev n0)) Queued → stored (sw (moment ev n0)) id = Some j → without_end sched j →
    ∀ N, ∃ n, (n0 <= n)%nat ∧ (N <= length (runs_of id (moment ev n)))%nat.
  Proof. exact (ever_again prof sched name clock ev n0 id j). Qed.

  (** In a build with overflow checks the count of repetitions ends at 2^31 - 1: a queue that stays alive has not
      executed the job more often than that, so that in no such endless execution it stays alive. *)
  Theorem C106_debug_bound (ev : nat → event M) n0 n id j x slot r cc :
    prof = Debug → healthy prof sched name clock ev →
    (∀ n, (n0 <= n)%nat → ¬ submits id (ev n) ∧ ev n ≠ EvCancel id) →
    id ∈ qlist (sw (moment ev n0)) Queued → stored (sw (moment ev n0)) id = Some j → without_end sched j →
    jtype (ctx j) = Cron x slot r cc → (n0 <= n)%nat →
    Z.of_nat (length (runs_of id (moment ev n))) <=
      Z.of_nat (length (runs_of id (moment ev n0))) + Z.max 0 (i32_max - r) + 1.
  Proof. exact (debug_bound prof sched name clock ev n0 n id j x slot r cc). Qed.
  Theorem C106_debug_refuted (ev : nat → event M) n0 id j :
    prof = Debug →
    ticking ev → polling prof sched name clock ev → time_goes_on clock →
    (∀ n, (n0 <= n)%nat → ¬ submits id (ev n) ∧ ev n ≠ EvCancel id) →
    (∀ n, (n0 <= n)%nat → ev n = EvTick → (length (qlist (sw (moment ev n)) Queued) <= 20)%nat) →
    id ∈ qlist (sw (moment ev n0)) Queued → stored (sw (moment ev n0)) id = Some j → without_end sched j →
    (∀ n, calm (ev n) ∧ (1 <= max_processing_jobs (cfg (moment ev n)))%nat ∧
       ok_hist prof sched name clock initial (EvStart :: map ev (seq 0 n))) →
    ¬ ∀ n, alive (moment ev n) = true.
  Proof. exact (debug_dies prof sched name clock ev n0 id j). Qed.
End theorems.
Print Assumptions C106_again_partial.
Print Assumptions C106_debug_bound.
Print Assumptions C106_debug_refuted.

(** *** Examples *)
(** "c" is to be executed every second; the timer and the polls alternate for ever. *)
Definition each_second (r : Z) : job Z :=
  set_ctx (demo_job "c" 1) (set_jtype (ctx (demo_job "c" 1)) (Cron "* * * * * *" 1000000000 r (CronContext 0 None None))).
Definition beats (n : nat) : event Z :=
  match n with
  | O => EvEnqueue (each_second 0) new_re_run
  | S n => if Nat.even n then EvTick else EvTask 0 (demo_ok 1)
  end.
Notation at_moment := (moment (M := Z) Release demo_sched "q" demo_clock beats).
Notation all_ok n := (EvStart :: map beats (seq 0 n)).
Lemma beats_later n : (1 <= n)%nat → beats n = EvTick ∨ beats n = EvTask 0 (demo_ok 1).
Proof. intros Hn. destruct n as [|n]; [lia|]. cbn. destruct (Nat.even n); auto. Qed.
Lemma beats_calm n : calm (beats n).
Proof. destruct n as [|n]; [done|]. cbn. by destruct (Nat.even n). Qed.
Lemma beats_ok n : ok_hist Release demo_sched "q" demo_clock initial (all_ok n).
Proof.
  apply plain_ok. constructor; [done|]. apply list.Forall_forall. intros e He.
  apply elem_of_list_fmap in He as (k & -> & _). destruct k as [|k]; [done|]. cbn. by destruct (Nat.even k).
Qed.
(** The queue lives, nothing but "c" is there, and that goes on. *)
Definition beating (s : sys world Z) : Prop :=
  alive s = true ∧ max_processing_jobs (cfg s) = 20%nat ∧ (∃ p, at_ "q" s "c" p ∧ lives demo_sched p) ∧
  ∀ id, id ≠ "c" → at_ "q" s id PAbsent.
Lemma beats_life n id p : at_ "q" (at_moment n) id p →
  ∃ p' new k k', at_ "q" (at_moment (S n)) id p' ∧ psteps Release demo_sched demo_clock id (beats n) k p new k' p'.
Proof.
  intros Hp. assert (ok_event (at_moment n) (beats n)) as Hoe.
  { pose proof (beats_ok (S n)) as Ho. rewrite seq_S, map_app, app_comm_cons in Ho.
    apply (ok_snoc Release demo_sched "q" demo_clock) in Ho as [_ Ho]. exact Ho. }
  destruct (life_step Release demo_sched "q" demo_clock _ _ Hoe (all_at_after Release demo_sched "q" demo_clock _ (beats_ok n))) as [_ H].
  destruct (H id p Hp) as (p' & new & H1 & H2 & _). rewrite (s_S Release demo_sched "q" demo_clock). eauto 10.
Qed.
Lemma beats_alone n id : id ≠ "c" → at_ "q" (at_moment n) id PAbsent.
Proof.
  intros Hid. induction n as [|n IH]; [by vm_compute|].
  destruct (beats_life n id PAbsent IH) as (p' & new & k & k' & H1 & H2).
  apply psteps_absent in H2 as ->; [done| |done].
  destruct n as [|n]; [cbn; congruence|]. destruct (beats_later (S n) ltac:(lia)) as [-> | ->]; by intros H.
Qed.
Lemma beats_task n t : t ∈ tasks (at_moment n) → tid t = "c" ∧ at_ "q" (at_moment n) "c" (PTask t).
Proof.
  intros Ht. apply elem_of_list_lookup in Ht as [i Hi].
  pose proof (at_task_of "q" _ i t (all_at_after Release demo_sched "q" demo_clock _ (beats_ok n)) Hi) as Hp.
  destruct (decide (tid t = "c")) as [E|E]; [by rewrite E in Hp|].
  assert (PTask t = PAbsent) as H by exact (at_fun demo_sched _ _ _ _ _ Hp (beats_alone n _ E)). done.
Qed.
Lemma beats_short n : (length (qlist "q" (sw (at_moment n)) Queued) <= 1)%nat.
Proof.
  pose proof (all_at_after Release demo_sched "q" demo_clock _ (beats_ok n)) as Hat.
  assert (∀ id, id ∈ qlist "q" (sw (at_moment n)) Queued → id = "c") as H.
  { intros id Hid. destruct (decide (id = "c")) as [|E]; [done|].
    destruct (at_waiting "q" _ id _ (beats_alone n id E) Hid). done. }
  assert (NoDup (qlist "q" (sw (at_moment n)) Queued)) as Hn.
  { pose proof (nodup_pending Release demo_sched "q" demo_clock beats 0 _ Hat) as Hnd. unfold pending in Hnd. by apply NoDup_app in Hnd as [Hnd _]. }
  revert H Hn. generalize (qlist "q" (sw (at_moment n)) Queued). intros l H Hn.
  destruct l as [|x [|y l]]; cbn; [lia|lia|]. apply list.NoDup_cons in Hn as [Hn _]. destruct Hn.
  rewrite (H x ltac:(left)), (H y ltac:(right; left)). left.
Qed.
Lemma beating_at n : beating (at_moment (S n)).
Proof.
  induction n as [|n (Ha & Hc & (p & Hp & Hl) & _)].
  - split; [by vm_compute|]. split; [by vm_compute|]. split; [|intros; by apply beats_alone].
    pose proof (all_at_after Release demo_sched "q" demo_clock _ (beats_ok 1)) as Hat.
    assert ("c" ∈ qlist "q" (sw (at_moment 1)) Queued) as Hq by (vm_compute; apply elem_of_list_here).
    destruct (all_at_stored "q" _ "c" Hat Hq) as (j & Hs & Hp). exists (PQueued j). split; [exact Hp|].
    assert (jtype (ctx j) = Cron "* * * * * *" 1000000000 0 (CronContext 0 None None) ∧ jretry (ctx j) = None) as [E1 E2].
    { revert Hs. vm_compute. by intros [= <-]. }
    eexists _, _, _, _, _. split; [exact E1|]. done.
  - destruct (beats_life (S n) "c" p Hp) as (p' & new & k & k' & H1 & H2).
    assert (alive (at_moment (S (S n))) = true ∧ cfg (at_moment (S (S n))) = cfg (at_moment (S n))) as [G1 G2].
    { rewrite (s_S Release demo_sched "q" demo_clock). pose proof (beats_task (S n)) as Ht.
      pose proof (all_at_after Release demo_sched "q" demo_clock _ (beats_ok (S n))) as Hat.
      pose proof (beats_short (S n)) as Hshort.
      destruct (beats_later (S n) ltac:(lia)) as [-> | ->].
      - destruct (tick_reach Release demo_sched "q" demo_clock _ Hat Ha) as (T1 & T2 & _); [|done].
        change (Z.of_nat (length (qlist "q" (sw (at_moment (S n))) Queued)) <= i32_max). unfold i32_max. lia.
      - destruct (tasks (at_moment (S n)) !! 0%nat) as [t|] eqn:Et.
        + destruct (Ht t ltac:(by eapply elem_of_list_lookup_2)) as [_ Hpt].
          assert (p = PTask t) as -> by exact (at_fun demo_sched _ _ _ _ _ Hp Hpt). destruct Hl as [Hl1 Hl2].
          destruct Hpt as (_ & _ & _ & Hst & Hj).
          rewrite (step_task Release demo_sched "q" demo_clock _ 0 t (demo_ok 1) Ha Et).
          2:{ unfold is_cancelled. destruct (t_phase t); [rewrite Hj; cbn; by rewrite Hst..|destruct Hj as [d ->]; cbn; by rewrite Hst]. }
          destruct (t_phase t); [done..|]. cbv zeta.
          destruct (judge Release demo_sched demo_clock (reads (sw (at_moment (S n)))) (t_job t) (demo_ok 1)) as [k1 v] eqn:Ej.
          destruct (judge_ever _ _ _ _ _ _ _ _ (alike_ever _ _ _ Hl2 Hl1) Ej) as [(_ & _ & ?)|(nj & -> & _)]; done.
        + unfold sys_step. rewrite Ha. unfold commit. cbn [ev_prog]. rewrite Et. done. }
    split; [done|]. split; [by rewrite G2|]. split; [|intros; by apply beats_alone].
    exists p'. split; [done|].
    apply (psteps_lives Release demo_sched demo_clock _ _ _ _ _ _ _) in H2 as [H2 _]; [done| |done].
    destruct (beats_later (S n) ltac:(lia)) as [-> | ->]; (split; [by intros H|done]).
Qed.
Lemma beats_healthy : healthy Release demo_sched "q" demo_clock beats.
Proof.
  intros n. split; [apply beats_calm|]. destruct n as [|n].
  - split; [by vm_compute|]. split; [|apply beats_ok]. apply Nat.leb_le. by vm_compute.
  - destruct (beating_at n) as (H1 & H2 & _). split; [done|]. split; [|apply beats_ok]. rewrite H2. lia.
Qed.
Lemma beats_ticking : ticking beats.
Proof. intros n. exists (S (2 * n))%nat. split; [lia|]. cbn [beats]. by rewrite Nat.even_mul. Qed.
Lemma beats_polling : polling Release demo_sched "q" demo_clock beats.
Proof.
  assert (∀ n t, t ∈ tasks (at_moment n) → beats n = EvTask 0 (demo_ok 1) →
    ∃ m i u t', (n <= m)%nat ∧ beats m = EvTask i u ∧ tasks (at_moment m) !! i = Some t' ∧ tid t' = "c") as H.
  { intros n t Ht He. destruct (tasks (at_moment n)) as [|t' l] eqn:E; [by apply elem_of_nil in Ht|].
    exists n, 0%nat, (demo_ok 1), t'. rewrite E. split; [done|]. split; [done|]. split; [done|].
    apply (beats_task n). rewrite E. left. }
  intros n t Ht. destruct (beats_task n t Ht) as [-> _].
  destruct n as [|n]; [exfalso; revert Ht; apply not_elem_of_nil|].
  destruct (beats_later (S n) ltac:(lia)) as [He|He]; [|by eapply H].
  assert (beats (S (S n)) = EvTask 0 (demo_ok 1)) as He'.
  { change ((if Nat.even n then EvTick else EvTask 0 (demo_ok 1)) = EvTick :> event Z) in He.
    change ((if Nat.even (S n) then EvTick else EvTask 0 (demo_ok 1)) = EvTask 0 (demo_ok 1) :> event Z).
    rewrite Nat.even_succ, <-Nat.negb_even. by destruct (Nat.even n). }
  destruct (H (S (S n)) t) as (m & i & u & t' & Hm & Hr); [|done|by exists m, i, u, t'; split; [lia|]].
  rewrite (s_S Release demo_sched "q" demo_clock), He. destruct (beating_at n) as (Ha & _).
  destruct (tick_reach Release demo_sched "q" demo_clock _ (all_at_after Release demo_sched "q" demo_clock _ (beats_ok (S n))) Ha)
    as (_ & _ & _ & new & E & _).
  2:{ change (t ∈ tasks (sys_step Release demo_sched "q" (mem_h demo_clock) (after Release demo_sched "q" demo_clock (all_ok (S n))) EvTick).1).
      rewrite E. apply elem_of_app. by left. }
  change (Z.of_nat (length (qlist "q" (sw (at_moment (S n))) Queued)) <= i32_max).
  pose proof (beats_short (S n)). unfold i32_max. lia.
Qed.

Example C106_case N : ∃ n, (1 <= n)%nat ∧ (N <= length (runs_of "c" (at_moment n)))%nat.
Proof.
  destruct (beating_at 0) as (_ & _ & (p & Hp & Hl) & _).
  assert ("c" ∈ qlist "q" (sw (at_moment 1)) Queued) as Hq by (vm_compute; apply elem_of_list_here).
  destruct (at_waiting "q" _ "c" p Hp Hq) as [j ->].
  apply (C106_again_partial Release demo_sched "q" demo_clock beats 1 "c" j);
    [exact beats_healthy|exact beats_ticking|exact beats_polling| | | |exact Hq| |exact Hl].
  - intros t. exists (Z.to_nat (t + 1)). intros k Hk. unfold demo_clock. lia.
  - intros n Hn. destruct (beats_later n Hn) as [-> | ->]; (split; [by intros H|done]).
  - intros n _ _. pose proof (beats_short n). lia.
  - by destruct Hp as ((Hs & _) & _).
Qed.
(** The last repetition in a debug build kills the queue; a release build goes on with the smallest i32. *)
Definition last_one : list (event Z) :=
  EvStart :: EvEnqueue (set_ctx (each_second i32_max) (set_jtype (ctx (each_second i32_max)) (Cron "* * * * * *" 0 i32_max (CronContext 0 None None)))) new_re_run ::
  EvTick :: demo_polls 0 (demo_ok 1).
Example C106_debug_case :
  without_end demo_sched (each_second i32_max) ∧ alive (demo_after last_one) = false ∧
  alive (after Release demo_sched "q" demo_clock last_one) = true ∧
  (jtype ∘ ctx <$> stored (sw (after Release demo_sched "q" demo_clock last_one)) "c") =
    Some (Cron "* * * * * *" 1000000000 i32_min (CronContext 0 None None)).
Proof. split; [|by vm_compute]. eexists _, _, _, _, _. split; [reflexivity|]. done. Qed.
