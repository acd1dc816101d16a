(** Limbo is final also when any number of processes race. *)
From Verif Require Import PropRace SpecAdrift AdriftFacts RaceCases Demo.
Open Scope Z_scope.

Section theorems.
  Context {M : Type} `{SM : Serde M} {SO : SerdeOk M}.
  (** Any number of processes, of different builds, with clocks and queue names of their own. *)
  Context (prof : nat → profile).
  Context (sched : nat → string → option (time → option time)).
  Context (name : nat → string).
  Context (clock : nat → nat → time).
  Notation race_after := (race_after prof sched name clock).
  Notation rrun := (race_run prof sched name (λ i, mem_h (clock i))).
  Notation ralong := (ralong prof sched name clock).
  Notation stored := (@stored M SM).
  Implicit Types xs ys : list (race_event M).

  (** C112.  A job that is stored as running, waits nowhere, and on which nobody works: whatever any number of
      processes do afterwards, call by call in any order, with failing calls and deaths anywhere, nobody gets a task
      of it, nobody executes it, its record stays the same, and so does its place in every list.  Only the calls of
      submissions of this id must not fail. *)
  Theorem C112_adrift (r : race M world) id j xs :
    adrift name r id j → ralong (submissions_work id) r xs →
    let z := rrun r xs in
    stored (r_world z) id = Some j ∧
    (∀ q s, occurs id (qlist q (r_world z) s) = occurs id (qlist q (r_world r) s)) ∧
    (∀ i p, r_procs z !! i = Some p → ∀ t, t ∈ p_tasks p → jid (t_orig t) ≠ id ∧ jid (t_job t) ≠ id) ∧
    executions id z = executions id r.
  Proof. exact (adrift_stays prof sched name clock r id j xs). Qed.

  (** The same for the state that any race leaves when all processes die at once, each anywhere in a step. *)
  Theorem C112_power_cut n xs ys id j :
    let r := race_after n xs in
    let r' := rrun r (power_cut n) in
    stored (r_world r) id = Some j → jstatus (ctx j) = Running →
    (∀ i, id ∉ qlist (name i) (r_world r) Queued) →
    ralong (submissions_work id) r' ys →
    let z := rrun r' ys in
    stored (r_world z) id = Some j ∧
    (∀ q s, occurs id (qlist q (r_world z) s) = occurs id (qlist q (r_world r) s)) ∧
    executions id z = executions id r.
  Proof. exact (cut_off prof sched name clock n xs ys id j). Qed.
End theorems.
Print Assumptions C112_adrift.
Print Assumptions C112_power_cut.

(** *** Examples *)
Notation ad_run := (race_run (λ _, Debug) (λ _, demo_sched) (λ _, "q"%string) (λ _, mem_h demo_clock)).
(** Two workers of one queue; the first picks and executes "a", and dies between taking it off the processing list
    and writing its record. *)
Definition ad_pre : list (race_event Z) :=
  RBegin 0 EvStart 0 :: go 0 9 ++ RBegin 1 EvStart 0 :: go 1 9
  ++ RBegin 0 (EvEnqueue (demo_job "a" 1) new_re_run) 0 :: go 0 9 ++ RBegin 0 EvTick 0 :: go 0 20
  ++ poll 0 (demo_ok 5) ++ poll 0 (demo_ok 5) ++ poll 0 (demo_ok 5)
  ++ RBegin 0 (EvTask 0 (demo_ok 5)) 0 :: go 0 2 ++ [RDie 0].
Definition ad_state : race Z world := two_after 2 ad_pre.
Definition ad_view (r : race Z world) :=
  (map (λ s, qlist "q" (r_world r) s) [Queued; Running; Finished; Failed; Canceled],
   option_map (λ j : job Z, (data j, jstatus (ctx j))) (stored (r_world r) "a"),
   map (λ p : proc Z, (length (p_tasks p), p_alive p, match p_now p with None => true | _ => false end)) (r_procs r),
   map (λ x : nat * job Z, (x.1, jid x.2)) (r_runs r)).
Example ex_C112_view :
  ad_view ad_state =
  ([[]; []; []; []; []], Some (1, Running), [(0%nat, false, true); (0%nat, true, true)], [(0%nat, "a")]).
Proof. by vm_compute. Qed.
Example ex_C112_adrift : ∃ j, adrift (λ _, "q"%string) ad_state "a" j ∧ data j = 1.
Proof.
  assert (keyed (M := Z) (r_world ad_state)) as Hk by apply keyed_after.
  pose proof ex_C112_view as E. revert E Hk. generalize ad_state. intros r E Hk.
  unfold ad_view in E. cbn [map] in E. injection E as E1 E2 E3 E4 E5 E6 E7 E8.
  destruct (stored (r_world r) "a") as [j|] eqn:Ej; [|done]. injection E6 as E6 E9.
  exists j. split; [|done]. split; [done|]. split; [done|]. split; [done|].
  split; [intros _; rewrite E1; by intros ?%elem_of_nil|].
  intros i p Hp. destruct (r_procs r) as [|p0 [|p1 [|p2 l]]]; try done.
  destruct p0 as [c0 [|] a0 [|]], p1 as [c1 [|] a1 [|]]; try done.
  destruct i as [|[|i]]; try done; injection Hp as <-; (split; [done|]); by intros t ?%elem_of_nil.
Qed.
(** The first starts again with a failing call while the second submits "a" anew; "a" is cancelled, with a failing
    read, and retried, at the same time; both look for work at the same time. *)
Definition ad_xs : list (race_event Z) :=
  [RBegin 1 (EvEnqueue (demo_job "a" 7) (EnqueueConfig true true)) 0; RBegin 0 EvStart 0; RCall 1 FOk;
   RCall 0 FBefore; RCall 0 FOk; RCall 1 FOk; RCall 1 FOk]
  ++ go 0 9 ++ [RBegin 1 (EvCancel "a") 0; RBegin 0 (EvRetry "a") 0; RCall 1 FAfter] ++ both 9
  ++ [RBegin 0 EvTick 3; RBegin 1 EvTick 5] ++ both 9.
Example ex_C112_works :
  ralong (λ _, Debug) (λ _, demo_sched) (λ _, "q"%string) (λ _, demo_clock) (submissions_work "a") ad_state ad_xs.
Proof. apply all_work_along. by vm_compute. Qed.
Example ex_C112_after :
  ad_view (ad_run ad_state ad_xs) =
  ([[]; []; []; []; []], Some (1, Running), [(0%nat, true, true); (0%nat, true, true)], [(0%nat, "a")]) ∧
  map (λ x : nat * event Z * response Z, x.2) (drop 7 (r_answers (ad_run ad_state ad_xs))) =
  [RUnit (Ok tt); RNone; RUnit (Ok tt); RBool (Ok false); RNone; RNone].
Proof. split; by vm_compute. Qed.

(** Without the condition on submissions it is false: the read of a submission fails, the id counts as unknown, and
    the job is queued and executed again. *)
Definition ad_bad : list (race_event Z) :=
  RBegin 1 (EvEnqueue (demo_job "a" 7) (EnqueueConfig true true)) 0 :: RCall 1 FBefore :: go 1 9
  ++ RBegin 1 EvTick 0 :: go 1 20 ++ poll 1 (demo_ok 5) ++ poll 1 (demo_ok 5).
Theorem C112_failing_read_refuted :
  ∃ (r : race Z world) j xs, adrift (λ _, "q"%string) r "a" j ∧
    executions "a" (ad_run r xs) ≠ executions "a" r.
Proof.
  destruct ex_C112_adrift as (j & Hj & _). exists ad_state, j, ad_bad. split; [exact Hj|].
  intros E. apply (f_equal length) in E. revert E. by vm_compute.
Qed.
Print Assumptions C112_failing_read_refuted.
(** Nor may a process be in the middle of a step: one that has read the waiting list before the other picked "a" picks
    it again after the other is dead. *)
Definition ad_mid : list (race_event Z) :=
  RBegin 0 EvStart 0 :: go 0 9 ++ RBegin 1 EvStart 0 :: go 1 9
  ++ RBegin 0 (EvEnqueue (demo_job "a" 1) new_re_run) 0 :: go 0 9
  ++ RBegin 1 EvTick 0 :: go 1 3 ++ RBegin 0 EvTick 0 :: go 0 20 ++ [RDie 0].
Theorem C112_busy_refuted :
  ∃ (r : race Z world) (j : job Z) xs,
    keyed (M := Z) (r_world r) ∧ stored (r_world r) "a" = Some j ∧ jstatus (ctx j) = Running ∧ qlist "q" (r_world r) Queued = [] ∧
    Forall (λ p, p_tasks p = []) (r_procs r) ∧
    Forall (λ x, match x with RCall _ f => f = FOk | RBegin _ (EvEnqueue _ _) _ => False | _ => True end) xs ∧
    executions "a" r = [] ∧ length (executions "a" (ad_run r xs)) = 1%nat.
Proof.
  set (xs := go 1 20 ++ poll 1 (demo_ok 5) ++ poll 1 (demo_ok 5)).
  assert (keyed (M := Z) (r_world (two_after 2 ad_mid))) as Hk by apply keyed_after.
  assert (option_map (λ j : job Z, jstatus (ctx j)) (stored (r_world (two_after 2 ad_mid)) "a") = Some Running) as H1 by by vm_compute.
  assert (qlist "q" (r_world (two_after 2 ad_mid)) Queued = []) as H2 by by vm_compute.
  assert (map (λ p : proc Z, length (p_tasks p)) (r_procs (two_after 2 ad_mid)) = [0%nat; 0%nat]) as H3 by by vm_compute.
  assert (length (executions "a" (two_after 2 ad_mid)) = 0%nat) as H4 by by vm_compute.
  assert (length (executions "a" (ad_run (two_after 2 ad_mid) xs)) = 1%nat) as H5 by by vm_compute.
  revert Hk H1 H2 H3 H4 H5. generalize (two_after 2 ad_mid). intros r Hk H1 H2 H3 H4 H5.
  destruct (stored (r_world r) "a") as [j|] eqn:Ej; [|done]. injection H1 as H1.
  exists r, j, xs. split; [done|]. split; [done|]. split; [done|]. split; [done|]. split.
  { destruct (r_procs r) as [|p0 [|p1 [|p2 l]]]; try done. destruct p0 as [c0 [|] a0 n0], p1 as [c1 [|] a1 n1]; try done.
    by repeat constructor. }
  split; [by repeat constructor|]. split; [by apply length_zero_iff_nil|exact H5].
Qed.
Print Assumptions C112_busy_refuted.
