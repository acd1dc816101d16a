(** A fleet executes a cron job without limits again and again. *)
From Verif Require Import SpecFleetFair SpecShort SpecEver HistFacts ApiFacts StarveFacts LiveFacts WorldFacts LifeFacts LifeProps
  PickFacts MicroFacts SpecDrain DrainFacts CrashFacts EverFacts WorkersFacts FleetLive FleetFair FleetEver Demo.
Open Scope Z_scope.

Section theorems.
  Context {M : Type} `{SM : Serde M} {SO : SerdeOk M}.
  Context (prof : nat → profile).
  Context (sched : nat → string → option (time → option time)).
  Context (name : string).
  Context (clock : nat → nat → time).
  Notation moment := (f_moment prof sched name clock).
  Notation qlist := (qlist name).
  Notation stored := (@stored M SM).

  (** C117.  [ev] is any endless execution of [N] processes as in C107, in which no tick, that of a start
      included, finds more than 20 waiting ids.  A waiting job that is due from some reading of the clocks on,
      and is neither submitted again nor cancelled, is executed, and the execution ends, however many other
      jobs arrive. *)
  Theorem C117_fleet_short N ev n0 a id j :
    f_healthy prof sched name clock N ev n0 → f_ticking prof sched name clock N ev → f_polling prof sched name clock N ev n0 →
    (n0 <= a)%nat → id ∈ qlist (f_world (moment N ev a)) Queued → stored (f_world (moment N ev a)) id = Some j →
    (∃ k0, ∀ i k, (k0 <= k)%nat → due j (clock i k)) →
    (∀ n, (a <= n)%nat → ¬ submits id (ev n).2 ∧ (ev n).2 ≠ EvCancel id) →
    (∀ n, (a <= n)%nat → (ev n).2 = EvTick ∨ (ev n).2 = EvStart → (length (qlist (f_world (moment N ev n)) Queued) <= 20)%nat) →
    ∃ k1 k2, (a <= k1 <= k2)%nat ∧
      (length (f_runs_of id (moment N ev a)) < length (f_runs_of id (moment N ev k1)))%nat ∧
      id ∉ map tid (all_tasks (moment N ev k2)).
  Proof. exact (fleet_short prof name clock sched N ev n0 a id j). Qed.
End theorems.

Section theorems.
  Context {M : Type} `{SM : Serde M} {SO : SerdeOk M}.
  Context (prof : nat → profile).
  Context (sched : string → option (time → option time)).
  Context (name : string).
  Context (clock : nat → nat → time).
  Notation moment := (f_moment prof (λ _, sched) name clock).

  (** A waiting cron job without limits and without a retry rule is executed any number of times, by
      whichever processes; each execution may be by another one.  The clocks need not agree, but all of
      them pass every time. *)
  Theorem C117_again N (ev : nat → nat * event M) n0 a id j :
    f_healthy prof (λ _, sched) name clock N ev n0 → f_ticking prof (λ _, sched) name clock N ev →
    f_polling prof (λ _, sched) name clock N ev n0 →
    (n0 <= a)%nat → id ∈ qlist name (f_world (moment N ev a)) Queued → stored (f_world (moment N ev a)) id = Some j →
    without_end sched j → (∀ t, ∃ k0, ∀ i k, (k0 <= k)%nat → t < clock i k) →
    (∀ n, (a <= n)%nat → ¬ submits id (ev n).2 ∧ (ev n).2 ≠ EvCancel id) →
    (∀ n, (a <= n)%nat → (ev n).2 = EvTick ∨ (ev n).2 = EvStart →
       (length (qlist name (f_world (moment N ev n)) Queued) <= 20)%nat) →
    ∀ K, ∃ n, (a <= n)%nat ∧ (K <= length (f_runs_of id (moment N ev n)))%nat.
  Proof. exact (fleet_again prof name clock sched N ev n0 a id j). Qed.
End theorems.
Print Assumptions C117_fleet_short.
Print Assumptions C117_again.

(** *** Examples *)
(** Two processes tick and poll in turn for ever; "c" is to be executed every second.  The clock of process
    1 is 100 ms ahead. *)
Definition secondly : job Z :=
  set_ctx (demo_job "c" 1) (set_jtype (ctx (demo_job "c" 1)) (Cron "* * * * * *" 1000000000 0 (CronContext 0 None None))).
Definition turns (n : nat) : nat * event Z :=
  match n with
  | 0 => (0, EvStart)
  | 1 => (1, EvStart)
  | 2 => (0, EvEnqueue secondly new_re_run)
  | _ => ((n mod 4) / 2, if Nat.even (n mod 4) then EvTick else EvTask 0 (demo_ok 1))
  end%nat.
Definition ahead (i k : nat) : time := demo_clock (k + 100 * i).
Notation at_turn := (f_moment (M := Z) (λ _, Release) (λ _, demo_sched) "q" ahead 2 turns).
Notation tstep := (fleet_step (M := Z) (λ _, Release) (λ _, demo_sched) "q" ahead).

Lemma turns_later n : (3 <= n)%nat →
  turns n = ((n mod 4) / 2, if Nat.even (n mod 4) then EvTick else EvTask 0 (demo_ok 1))%nat.
Proof. intros Hn. do 3 (destruct n as [|n]; [lia|]). done. Qed.
Lemma turns_kinds n : (3 <= n)%nat →
  ∃ i, (i < 2)%nat ∧ (turns n = (i, EvTick) ∨ turns n = (i, EvTask 0 (demo_ok 1)) ∧ (n mod 4 = 2 * i + 1)%nat).
Proof.
  intros Hn. rewrite (turns_later n Hn). pose proof (Nat.mod_upper_bound n 4 ltac:(lia)) as H.
  destruct (n mod 4)%nat as [|[|[|[|]]]]; [exists 0%nat|exists 0%nat|exists 1%nat|exists 1%nat|lia]; cbn; (split; [lia|]); auto.
Qed.
Lemma turns_poll n i : (3 <= n)%nat → (i < 2)%nat → (n mod 4 = 2 * i + 1)%nat → turns n = (i, EvTask 0 (demo_ok 1)).
Proof. intros Hn Hi E. rewrite (turns_later n Hn), E. by destruct i as [|[|i]]; [..|lia]. Qed.
Lemma turns_ok n : ok_fleet (λ _, Release) (λ _, demo_sched) "q" ahead (fleet_init 2) (map turns (seq 0 n)).
Proof.
  assert (Forall (λ ie : nat * event Z, plain_event ie.2) (map turns (seq 0 n))) as H.
  { apply list.Forall_forall. intros ie Hie. apply elem_of_list_fmap in Hie as (k & -> & _).
    do 3 (destruct k as [|k]; [done|]). destruct (turns_kinds (S (S (S k))) ltac:(lia)) as (i & _ & [-> | [-> _]]); done. }
  generalize (fleet_init (M := Z) 2) as f. induction H as [|[i e] es He _ IH]; intros f; cbn; [done|].
  split; [|apply IH]. destruct e; cbn in *; auto.
Qed.
Lemma turns_at n : all_at "q" (whole (at_turn n)).
Proof. apply whole_after, turns_ok. Qed.
Lemma turns_S n : at_turn (S n) = tstep (at_turn n) (turns n).
Proof. apply F_S. Qed.
Lemma turns_life n id p : at_ "q" (whole (at_turn n)) id p →
  ∃ p' new k k', at_ "q" (whole (at_turn (S n))) id p' ∧
    psteps Release demo_sched (ahead (turns n).1) id (turns n).2 k p new k' p'.
Proof.
  intros Hp. rewrite turns_S. destruct (turns n) as [i e] eqn:Et.
  destruct (fleet_life (λ _, Release) (λ _, demo_sched) "q" ahead (at_turn n) i e) as [_ H]; [|apply turns_at|].
  - pose proof (turns_ok (S n)) as Ho. rewrite seq_S, map_app in Ho. apply ok_fleet_app in Ho as [_ Ho].
    cbn in Ho. rewrite Et in Ho. apply Ho.
  - destruct (H id p Hp) as (p' & new & H1 & H2 & _). eauto 10.
Qed.
Lemma turns_alone n id : id ≠ "c" → at_ "q" (whole (at_turn n)) id PAbsent.
Proof.
  intros Hid. induction n as [|n IH]; [by vm_compute|].
  destruct (turns_life n id PAbsent IH) as (p' & new & k & k' & H1 & H2).
  apply psteps_absent in H2 as ->; [done| |done].
  destruct n as [|[|[|n]]]; [by intros H..|cbn; congruence|].
  destruct (turns_kinds (S (S (S n))) ltac:(lia)) as (i & _ & [-> | [-> _]]); by intros H.
Qed.
Lemma turns_task n i m t : f_members (at_turn n) !! i = Some m → t ∈ m_tasks m →
  tid t = "c" ∧ at_ "q" (whole (at_turn n)) "c" (PTask t).
Proof.
  intros Em Ht. destruct (tasks_split _ i m Em) as (o & Ho & _).
  assert (t ∈ all_tasks (at_turn n)) as Hin by (rewrite Ho; apply elem_of_app; by right).
  apply elem_of_list_lookup in Hin as [x Hx].
  pose proof (at_task_of "q" (whole (at_turn n)) x t (turns_at n) Hx) as Hp.
  destruct (decide (tid t = "c")) as [E|E]; [by rewrite E in Hp|].
  assert (PTask t = PAbsent) as H by exact (at_fun demo_sched _ _ _ _ _ Hp (turns_alone n _ E)). done.
Qed.
Lemma turns_short n : (length (qlist "q" (f_world (at_turn n)) Queued) <= 1)%nat.
Proof.
  pose proof (whole_nodup "q" _ (turns_at n)) as Hn.
  assert (∀ id, id ∈ qlist "q" (f_world (at_turn n)) Queued → id = "c") as H.
  { intros id Hid. destruct (decide (id = "c")) as [|E]; [done|].
    destruct (at_waiting "q" _ id _ (turns_alone n id E) Hid). done. }
  revert H Hn. generalize (qlist "q" (f_world (at_turn n)) Queued). intros l H Hn.
  destruct l as [|x [|y l]]; cbn; [lia|lia|]. apply list.NoDup_cons in Hn as [Hn _]. destruct Hn.
  rewrite (H x ltac:(left)), (H y ltac:(right; left)). left.
Qed.
(** A living process ticks or polls. *)
Lemma turns_one n i m e :
  f_members (at_turn n) !! i = Some m → m_alive m = true → (∃ p, at_ "q" (whole (at_turn n)) "c" p ∧ EverFacts.lives demo_sched p) →
  e = EvTick ∨ e = EvTask 0 (demo_ok 1) →
  let s := (sys_step Release demo_sched "q" (mem_h (ahead i)) (seen_by (at_turn n) m) e).1 in
  alive s = true ∧ cfg s = m_cfg m ∧ (e = EvTick → ∃ new, tasks s = m_tasks m ++ new).
Proof.
  intros Em Ha (p & Hp & Hl) He. cbv zeta. destruct He as [->| ->].
  - destruct (tick_spec Release demo_sched "q" (ahead i) (seen_by (at_turn n) m)) as (new & H1 & H2 & _ & H4 & _).
    + done.
    + exact (whole_keyed "q" _ (turns_at n)).
    + exact (whole_nodup "q" _ (turns_at n)).
    + change (Z.of_nat (length (qlist "q" (f_world (at_turn n)) Queued)) <= i32_max). pose proof (turns_short n). unfold i32_max. lia.
    + split; [done|]. split; [done|]. intros _. by eexists.
  - destruct (m_tasks m !! 0%nat) as [t|] eqn:Et.
    + destruct (turns_task n i m t Em ltac:(by eapply elem_of_list_lookup_2)) as [_ Hpt].
      assert (p = PTask t) as -> by exact (at_fun demo_sched _ _ _ _ _ Hp Hpt). destruct Hl as [Hl1 Hl2].
      destruct Hpt as (_ & _ & _ & Hst & Hj).
      rewrite (step_task Release demo_sched "q" (ahead i) (seen_by (at_turn n) m) 0 t (demo_ok 1) Ha Et).
      2:{ unfold is_cancelled. destruct (t_phase t); [rewrite Hj; cbn; by rewrite Hst..|destruct Hj as [d ->]; cbn; by rewrite Hst]. }
      destruct (t_phase t); [done..|]. cbv zeta.
      destruct (judge Release demo_sched (ahead i) (reads (sw (seen_by (at_turn n) m))) (t_job t) (demo_ok 1)) as [k1 v] eqn:Ej.
      destruct (judge_ever _ _ _ _ _ _ _ _ (alike_ever _ _ _ Hl2 Hl1) Ej) as [(_ & _ & ?)|(nj & -> & _)]; done.
    + unfold sys_step. cbn [alive seen_by]. rewrite Ha. unfold commit. cbn [ev_prog tasks seen_by]. rewrite Et. done.
Qed.
(** Both processes live, with the default limit, and "c" is there. *)
Lemma turns_on n : (3 <= n)%nat →
  (∃ p, at_ "q" (whole (at_turn n)) "c" p ∧ EverFacts.lives demo_sched p) ∧
  ∀ i, (i < 2)%nat → ∃ m, f_members (at_turn n) !! i = Some m ∧ m_alive m = true ∧ max_processing_jobs (m_cfg m) = 20%nat.
Proof.
  intros Hn. replace n with (3 + (n - 3))%nat by lia. induction (n - 3)%nat as [|d [IHp IHm]].
  - split.
    + assert ("c" ∈ qlist "q" (f_world (at_turn 3)) Queued) as Hq by (vm_compute; apply elem_of_list_here).
      destruct (all_at_stored "q" _ "c" (turns_at 3) Hq) as (j & Hs & Hp). exists (PQueued j). split; [exact Hp|].
      assert (jtype (ctx j) = Cron "* * * * * *" 1000000000 0 (CronContext 0 None None) ∧ jretry (ctx j) = None) as [E1 E2].
      { revert Hs. vm_compute. by intros [= <-]. }
      eexists _, _, _, _, _. split; [exact E1|]. done.
    + assert (map (λ m : member Z, (m_alive m, max_processing_jobs (m_cfg m))) (f_members (at_turn 3)) =
        [(true, 20%nat); (true, 20%nat)]) as E by (by vm_compute).
      intros i Hi. change (3 + 0)%nat with 3%nat. revert E. generalize (f_members (at_turn 3)). intros l E.
      destruct l as [|m0 [|m1 [|]]]; try done. injection E as E1 E2 E3 E4.
      destruct i as [|[|i]]; [exists m0|exists m1|lia]; done.
  - rewrite Nat.add_succ_r. set (k := (3 + d)%nat) in *. split.
    + destruct IHp as (p & Hp & Hl). destruct (turns_life k "c" p Hp) as (p' & new & k1 & k2 & H1 & H2).
      exists p'. split; [done|]. apply psteps_lives in H2 as [H2 _]; [done| |done].
      destruct (turns_kinds k ltac:(lia)) as (i & _ & [-> | [-> _]]); (split; [by intros H|done]).
    + intros i Hi. rewrite turns_S. destruct (turns_kinds k ltac:(lia)) as (i' & Hi' & He).
      destruct (IHm i' Hi') as (m' & Em' & Ha' & Hc').
      assert (∃ e, turns k = (i', e) ∧ (e = EvTick ∨ e = EvTask 0 (demo_ok 1))) as (e & -> & He').
      { destruct He as [He|[He _]]; eauto. }
      destruct (turns_one k i' m' e Em' Ha' IHp He') as (G1 & G2 & _).
      unfold fleet_step. cbn [fst snd]. rewrite Em'. cbn [f_members].
      destruct (decide (i = i')) as [->|Hne].
      * rewrite list_lookup_insert by (by eapply lookup_lt_Some). eexists. split; [done|]. cbn [m_alive m_cfg]. by rewrite G2.
      * rewrite list_lookup_insert_ne by done. by apply IHm.
Qed.
Example C117_healthy : f_healthy (λ _, Release) (λ _, demo_sched) "q" ahead 2 turns 3.
Proof.
  split; [exact turns_ok|]. split.
  - intros n i Hn Hl. assert (i < 2)%nat as Hi.
    { destruct Hl as [(m & Hm & _)|[_ Hi]]; [|done]. apply lookup_lt_Some in Hm. by rewrite F_members in Hm. }
    destruct (turns_on (S n) ltac:(lia)) as [_ H]. destruct (H i Hi) as (m & H1 & H2 & _). by exists m.
  - intros n i m Hn Em _. assert (i < 2)%nat as Hi. { apply lookup_lt_Some in Em. by rewrite F_members in Em. }
    destruct (turns_on n Hn) as [_ H]. destruct (H i Hi) as (m' & H1 & _ & H2). rewrite Em in H1. injection H1 as <-. rewrite H2.
    assert (length (lost "q" (at_turn 3)) = 0%nat) as -> by (by vm_compute). lia.
Qed.
Example C117_ticking : f_ticking (λ _, Release) (λ _, demo_sched) "q" ahead 2 turns.
Proof.
  intros n. exists (4 * (n + 1))%nat, 0%nat. split; [lia|]. split.
  - rewrite turns_later by lia. rewrite Nat.mul_comm, Nat.mod_mul by done. done.
  - destruct (turns_on (4 * (n + 1)) ltac:(lia)) as [_ H]. destruct (H 0%nat ltac:(lia)) as (m & H1 & H2 & _). by exists m.
Qed.
Lemma turns_polled d n i m : (3 <= n)%nat → (i < 2)%nat → ((n + d) mod 4 = 2 * i + 1)%nat →
  f_members (at_turn n) !! i = Some m → m_tasks m ≠ [] →
  ∃ k m' t', (n <= k)%nat ∧ turns k = (i, EvTask 0 (demo_ok 1)) ∧ f_members (at_turn k) !! i = Some m' ∧ m_tasks m' !! 0%nat = Some t'.
Proof.
  revert n m. induction d as [|d IH]; intros n m Hn Hi E Em Hne.
  - rewrite Nat.add_0_r in E. exists n, m. destruct (m_tasks m) as [|t l]; [done|]. exists t. split; [done|].
    split; [by apply turns_poll|]. done.
  - destruct (turns_on n Hn) as [Hp Hm]. destruct (turns_kinds n Hn) as (i' & Hi' & He).
    assert (turns n = (i, EvTask 0 (demo_ok 1)) ∨ ∃ m', f_members (at_turn (S n)) !! i = Some m' ∧ m_tasks m' ≠ []) as [Hx|(m' & Em' & Hne')].
    { destruct (Hm i' Hi') as (m1 & Em1 & Ha1 & _). destruct (decide (i = i')) as [->|Hii].
      - destruct He as [He|[He _]]; [|by left]. right. rewrite turns_S, He. unfold fleet_step. cbn [fst snd]. rewrite Em.
        cbn [f_members]. rewrite list_lookup_insert by (by eapply lookup_lt_Some). eexists. split; [done|]. cbn [m_tasks].
        rewrite Em in Em1. injection Em1 as <-.
        destruct (turns_one n i' m EvTick Em Ha1 Hp ltac:(by left)) as (_ & _ & G). destruct (G eq_refl) as [new ->].
        by destruct (m_tasks m).
      - right. exists m. split; [|done]. rewrite turns_S. unfold fleet_step.
        assert ((turns n).1 = i') as -> by (destruct He as [-> |[-> _]]; done). rewrite Em1. cbn [f_members].
        by rewrite list_lookup_insert_ne. }
    + exists n, m. destruct (m_tasks m) as [|t l]; [done|]. exists t. done.
    + destruct (IH (S n) m') as (k & m2 & t2 & Hk & H); try done; [lia|by rewrite <-E; f_equal; lia|].
      exists k, m2, t2. split; [lia|done].
Qed.
Example C117_polling : f_polling (λ _, Release) (λ _, demo_sched) "q" ahead 2 turns 3.
Proof.
  intros n i m t Hn Em Ht. assert (i < 2)%nat as Hi. { apply lookup_lt_Some in Em. by rewrite F_members in Em. }
  destruct (turns_polled (2 * i + 1 + 3 * n) n i m Hn Hi) as (k & m' & t' & Hk & H1 & H2 & H3).
  - replace (n + (2 * i + 1 + 3 * n))%nat with (2 * i + 1 + n * 4)%nat by lia. rewrite Nat.mod_add by done.
    apply Nat.mod_small. lia.
  - done.
  - intros E. rewrite E in Ht. by apply elem_of_nil in Ht.
  - exists k, 0%nat, (demo_ok 1), m', t'. split; [done|]. split; [done|]. split; [done|]. split; [done|].
    destruct (turns_task n i m t Em Ht) as [-> _]. by apply (turns_task k i m' t' H2); eapply elem_of_list_lookup_2.
Qed.
Example C117_case K : ∃ n, (3 <= n)%nat ∧ (K <= length (f_runs_of "c" (at_turn n)))%nat.
Proof.
  destruct (turns_on 3 ltac:(lia)) as [(p & Hp & Hl) _].
  assert ("c" ∈ qlist "q" (f_world (at_turn 3)) Queued) as Hq by (vm_compute; apply elem_of_list_here).
  destruct (at_waiting "q" _ "c" p Hp Hq) as [j ->].
  apply (C117_again (λ _, Release) demo_sched "q" ahead 2 turns 3 3 "c" j);
    [exact C117_healthy|exact C117_ticking|exact C117_polling|lia|exact Hq| |exact Hl| | |].
  - by destruct Hp as ((Hs & _) & _).
  - intros t. exists (Z.to_nat (t + 1)). intros i k Hk. unfold ahead, demo_clock. lia.
  - intros n Hn. destruct (turns_kinds n Hn) as (i & _ & [-> | [-> _]]); (split; [by intros H|done]).
  - intros n _ _. pose proof (turns_short n). lia.
Qed.
