(** Processes of which only one at a time picks jobs: nothing is executed by two at a time. *)
From Verif Require Import Spec SpecRace SpecLost SpecLocked LockedRace LockedLoop LockedLive LockedCases StarveCases RaceCases Demo.

Section theorems.
  Context {M : Type} `{SM : Serde M}.
  Context (prof : nat → profile).
  Context (sched : nat → string → option (time → option time)).
  Context (name : string).
  Context (clock : nat → nat → time).
  Notation race_after := (race_after prof sched (λ _, name) clock).
  Notation qlist := (qlist name).

  (** C90.  Any number of processes work on one queue, call by call, with any failing calls and any deaths,
      but never two of them are in a tick at the same time, nor one in a tick and one in cancel_job; ids are
      fresh, and nobody uses retry_job.  Then no job is executed by two tasks at a time, and every job in
      work is in the processing list. *)
  Theorem C90_no_overlap n xs :
    always_locked prof sched name clock n xs → NoDup (begun_ids xs) → Forall no_retry_job xs →
    let r := race_after n xs in
    NoDup (all_in_work r) ∧ ∀ id, id ∈ all_in_work r → id ∈ qlist (r_world r) Running.
  Proof.
    intros H1 H2 H3. destruct (locked_once prof sched name clock n xs H1 H2 H3) as (A & B & _). exact (conj A B).
  Qed.
  (** C90: no id is twice in the waiting and processing lists. *)
  Theorem C90_listed_once n xs :
    always_locked prof sched name clock n xs → NoDup (begun_ids xs) → Forall no_retry_job xs →
    let r := race_after n xs in
    NoDup (qlist (r_world r) Queued ++ qlist (r_world r) Running).
  Proof. intros H1 H2 H3. apply (locked_once prof sched name clock n xs H1 H2 H3). Qed.
  (** C90: if moreover the calls that count do not fail, the limit holds for all processes together. *)
  Theorem C90_limit n xs m :
    always_locked prof sched name clock n xs → NoDup (begun_ids xs) → Forall no_retry_job xs →
    (max_processing_jobs wq_config_default <= m)%nat → Forall (limited m) xs →
    ralong prof sched (λ _, name) clock counts_ok (race_init world_empty n) xs →
    (length (qlist (r_world (race_after n xs)) Running) <= m)%nat ∧
    (length (all_in_work (race_after n xs)) <= m)%nat.
  Proof. exact (locked_work_limit prof sched name clock n xs m). Qed.

  (** C91.  If moreover no call fails and no process dies, every id in the processing list has a task at some
      process, unless a process is in the middle of a tick, ... *)
  Theorem C91_processing_has_task n xs :
    always_locked prof sched name clock n xs → NoDup (begun_ids xs) → Forall no_retry_job xs →
    ralong prof sched (λ _, name) clock (no_failure prof sched name clock) (race_init world_empty n) xs →
    let r := race_after n xs in
    ∀ id, id ∈ qlist (r_world r) Running →
      (∃ i p t, r_procs r !! i = Some p ∧ t ∈ p_tasks p ∧ tid t = id) ∨ ∃ i p, r_procs r !! i = Some p ∧ picks p.
  Proof. intros H1 H2 H3 H4. apply (locked_full prof sched name clock n xs H1 H2 H3 H4). Qed.
  (** ... and when no process is in the middle of a step, the processing list consists of the ids of all
      tasks. *)
  Theorem C91_at_rest n xs :
    always_locked prof sched name clock n xs → NoDup (begun_ids xs) → Forall no_retry_job xs →
    ralong prof sched (λ _, name) clock (no_failure prof sched name clock) (race_init world_empty n) xs →
    let r := race_after n xs in
    (∀ i p, r_procs r !! i = Some p → p_now p = None) →
    qlist (r_world r) Running ≡ₚ concat (map (λ p, map tid (p_tasks p)) (r_procs r)).
  Proof. intros H1 H2 H3 H4. apply (locked_full prof sched name clock n xs H1 H2 H3 H4). Qed.
  (** C91: a job whose submission was answered Ok is waiting or has a task, until its execution ends or it is
      cancelled. *)
  Theorem C91_not_lost id n xs i j c :
    always_locked prof sched name clock n xs → NoDup (begun_ids xs) → Forall no_retry_job xs →
    ralong prof sched (λ _, name) clock (no_failure prof sched name clock) (race_init world_empty n) xs →
    ralong prof sched (λ _, name) clock (untouched (λ _, name) name id) (race_init world_empty n) xs →
    let r := race_after n xs in
    jid j = id → (i, EvEnqueue j c, RUnit (Ok tt)) ∈ r_answers r →
    (∀ k p, r_procs r !! k = Some p → ¬ picks p) →
    id ∈ qlist (r_world r) Queued ∨ ∃ k p t, r_procs r !! k = Some p ∧ t ∈ p_tasks p ∧ tid t = id.
  Proof. exact (locked_kept prof sched name clock id n xs i j c). Qed.

  (** C84: with ticks that take turns, every tick ends. *)
  Theorem C84_turns_end n xs i : always_locked prof sched name clock n xs → ¬ exhausted (race_after n xs) i.
  Proof. exact (locked_never_exhausted prof sched name clock n xs i). Qed.
  Theorem C84_turns_steps_end n (s : nat → race_event M) i :
    (i < n)%nat → (∀ a, ∃ b, (a <= b)%nat ∧ ∃ f, s b = RCall i f) →
    (∀ a, locked (race_after n (up_to s a))) →
    (∀ a, ∃ b, (a <= b)%nat ∧ idle (race_after n (up_to s b)) i) ∧ (∀ a, ¬ exhausted (race_after n (up_to s a)) i).
  Proof. exact (locked_steps_end prof sched name clock n s i). Qed.

  (** C92.  While an id waits and is due, the ticks that find a free slot and end are fewer than the ids that
      wait or come, ... *)
  Theorem C92_waiting_partial id n ys xs :
    let r := race_after n ys in
    always_locked prof sched name clock n (ys ++ xs) → ralong prof sched (λ _, name) clock ticks_ok r xs →
    (∀ zs zs', xs = zs ++ zs' → let w := r_world (race_after n (ys ++ zs)) in
       id ∈ qlist w Queued ∧ due_now (M := M) clock id w ∧ fits name w) →
    (ended_free_ticks prof sched name clock None r xs < length (qlist (r_world r) Queued) + came prof sched name clock r xs)%nat.
  Proof. exact (locked_free_ticks' prof sched name clock id n ys xs). Qed.
  (** ... so a job whose submission was answered Ok is taken after that many ticks, whatever else the
      processes do at the same time.  Missing: unbounded arrivals, for which it is false. *)
  Theorem C92_taken_partial id n ys xs i j c :
    let r := race_after n ys in
    always_locked prof sched name clock n (ys ++ xs) → ralong prof sched (λ _, name) clock ticks_ok r xs →
    ralong prof sched (λ _, name) clock (untouched (λ _, name) name id) (race_init world_empty n) (ys ++ xs) →
    jid j = id → (i, EvEnqueue j c, RUnit (Ok tt)) ∈ r_answers r →
    (∀ zs zs', xs = zs ++ zs' → let w := r_world (race_after n (ys ++ zs)) in
       fits name w ∧ (id ∈ qlist w Queued → due_now (M := M) clock id w)) →
    (length (qlist (r_world r) Queued) + came prof sched name clock r xs
       <= ended_free_ticks prof sched name clock None r xs)%nat →
    ∃ zs zs', xs = zs ++ zs' ∧ id ∈ qlist (r_world (race_after n (ys ++ zs))) Running.
  Proof. exact (locked_taken' prof sched name clock id n ys xs i j c). Qed.
End theorems.
Print Assumptions C90_no_overlap.
Print Assumptions C90_listed_once.
Print Assumptions C90_limit.
Print Assumptions C91_processing_has_task.
Print Assumptions C91_at_rest.
Print Assumptions C91_not_lost.
Print Assumptions C84_turns_end.
Print Assumptions C84_turns_steps_end.
Print Assumptions C92_waiting_partial.
Print Assumptions C92_taken_partial.

(** C90 is false if cancel_job may come in the middle of a tick, even if no call fails and never two
    processes tick at the same time.  "a" is not due and is cancelled after the tick has read the waiting
    ids; from there on the tick is one id off: it executes "b" but moves "c" to the processing list, and
    "b" is picked a second time. *)
Theorem C90_cancel_in_tick_refuted :
  ∃ xs : list (race_event Z),
    Forall (λ x, match x with RCall _ f => f = FOk | RDie _ => False | RBegin _ _ _ => True end) xs ∧
    NoDup (begun_ids xs) ∧ Forall no_retry_job xs ∧
    (∀ ys zs i k p p', xs = ys ++ zs → r_procs (two_after 2 ys) !! i = Some p →
       r_procs (two_after 2 ys) !! k = Some p' → picks p → picks p' → i = k) ∧
    all_in_work (two_after 2 xs) = ["b"; "b"]%string.
Proof. exact (ex_intro _ cc_xs cancel_in_tick). Qed.
Print Assumptions C90_cancel_in_tick_refuted.
(** C92 is false with unbounded arrivals, even if at most three ids are waiting: a job that arrives before the
    tick has turned the list gets ahead of "c", again and again. *)
Theorem C92_starvation_refuted :
  ∃ ys, ∀ n, ∃ xs, always_locked (λ _, Debug) (λ _, demo_sched) "q" still 2 (ys ++ xs) ∧
    Forall (λ x, match x with RCall _ f => f = FOk | RDie _ => False | RBegin _ _ _ => True end) (ys ++ xs) ∧
    ended_free_ticks (λ _, Debug) (λ _, demo_sched) "q" still None (safter ys) xs = (2 * n)%nat ∧
    ∀ zs zs', xs = zs ++ zs' → let r := safter (ys ++ zs) in
      "c"%string ∈ qlist "q" (r_world r) Queued ∧ due_now (M := Z) still "c" (r_world r) ∧
      (length (qlist "q" (r_world r) Queued) <= 3)%nat ∧ Forall up (r_procs r).
Proof. exact (ex_intro _ starve_ys (λ n, ex_intro _ (rounds n) (starves n))). Qed.
Print Assumptions C92_starvation_refuted.

(** The histories of LockedCases.v: submissions and executions overlap with ticks; a call fails or loses its
    answer; a process dies. *)
Example C90_case :
  Forall (λ xs, always_locked (λ _, Debug) (λ _, demo_sched) "q" (λ _, demo_clock) 2 xs ∧
      NoDup (begun_ids xs) ∧ Forall no_retry_job xs ∧ Forall (limited 20) xs ∧
      ralong (λ _, Debug) (λ _, demo_sched) (λ _, "q"%string) (λ _, demo_clock) counts_ok (race_init world_empty 2) xs)
    [lk_more; lk_bad FBefore; lk_bad FAfter] ∧
  map (λ xs, let r := two_after 2 xs in
      (all_in_work r, qlist "q" (r_world r) Queued, qlist "q" (r_world r) Running, map p_alive (r_procs r)))
    [lk_more; lk_bad FBefore; lk_bad FAfter] =
  [(["a"; "b"; "c"], [], ["c"; "b"; "a"], [true; true]);
   (["a"; "b"], ["c"], ["b"; "a"], [true; false]);
   (["a"; "b"], [], ["c"; "b"; "a"], [true; false])]%string.
Proof.
  split; [|by vm_compute].
  repeat (apply List.Forall_cons; [split_and!; [apply locked_walk; by vm_compute|match goal with |- NoDup ?l => let l' := eval vm_compute in l in change (NoDup l') end; by apply (bool_decide_eq_true_1 _)| | |
    apply counts_kept_ok; by vm_compute]|]); [..|constructor].
  all: unfold lk_more, lk_bad, lk_pick, both_go, go; cbn [app repeat concat];
    repeat (apply List.Forall_cons; [first [done|cbn; lia]|]); constructor.
Qed.
(** Process 0 has been told to take two jobs at a time, process 1 takes the third. *)
Example C91_case :
  let r := two_after 2 lk_more in
  always_locked (λ _, Debug) (λ _, demo_sched) "q" (λ _, demo_clock) 2 lk_more ∧
  NoDup (begun_ids lk_more) ∧ Forall no_retry_job lk_more ∧
  ralong (λ _, Debug) (λ _, demo_sched) (λ _, "q"%string) (λ _, demo_clock)
    (no_failure (λ _, Debug) (λ _, demo_sched) "q" (λ _, demo_clock)) (race_init world_empty 2) lk_more ∧
  ralong (λ _, Debug) (λ _, demo_sched) (λ _, "q"%string) (λ _, demo_clock) (untouched (λ _, "q"%string) "q" "c")
    (race_init world_empty 2) lk_more ∧
  (1%nat, EvEnqueue (demo_job "c" 3) new_re_run, RUnit (Ok tt)) ∈ r_answers r ∧
  map (λ p, match p_now p with None => map tid (p_tasks p) | Some _ => [] end) (r_procs r) = [["a"; "b"]; ["c"]]%string ∧
  qlist "q" (r_world r) Running = ["c"; "b"; "a"]%string.
Proof.
  cbv zeta. split; [apply locked_walk; by vm_compute|]. split.
  { match goal with |- NoDup ?l => let l' := eval vm_compute in l in change (NoDup l') end. by apply (bool_decide_eq_true_1 _). }
  split.
  { unfold lk_more, lk_pick, both_go, go. cbn [app repeat concat]. repeat (apply List.Forall_cons; [done|]). constructor. }
  split. { apply (all_along_ok still_up); [apply still_up_ok|by vm_compute]. }
  split. { apply (all_along_ok tasks_young); [apply tasks_young_ok|by vm_compute]. }
  split; [|split; by vm_compute].
  by apply elem_of_list_In; vm_compute; auto 10.
Qed.
(** Process 0 has one slot.  Three ids wait and one comes: four ticks with a free slot. *)
Example C92_case :
  let r := two_after 2 lk_sub in
  always_locked (λ _, Debug) (λ _, demo_sched) "q" (λ _, demo_clock) 2 (lk_sub ++ lk_turns) ∧
  ralong (λ _, Debug) (λ _, demo_sched) (λ _, "q"%string) (λ _, demo_clock) ticks_ok r lk_turns ∧
  ralong (λ _, Debug) (λ _, demo_sched) (λ _, "q"%string) (λ _, demo_clock) (untouched (λ _, "q"%string) "q" "c")
    (race_init world_empty 2) (lk_sub ++ lk_turns) ∧
  (1%nat, EvEnqueue (demo_job "c" 3) new_re_run, RUnit (Ok tt)) ∈ r_answers r ∧
  (∀ zs zs', lk_turns = zs ++ zs' → let w := r_world (two_after 2 (lk_sub ++ zs)) in
     fits "q" w ∧ ("c" ∈ qlist "q" w Queued → due_now (M := Z) (λ _, demo_clock) "c" w)%string) ∧
  (qlist "q" (r_world r) Queued, came (λ _, Debug) (λ _, demo_sched) "q" (λ _, demo_clock) r lk_turns,
   ended_free_ticks (λ _, Debug) (λ _, demo_sched) "q" (λ _, demo_clock) None r lk_turns) = (["c"; "b"; "a"]%string, 1%nat, 5%nat) ∧
  qlist "q" (r_world (two_after 2 (lk_sub ++ lk_turns))) Running = ["d"; "c"; "b"; "a"]%string.
Proof.
  cbv zeta. split; [apply locked_walk; by vm_compute|].
  split. { apply (all_along_ok (λ _ x, match x with RCall _ (FBefore | FAfter) => false | _ => true end)); [|by vm_compute].
    intros r [| ? [] |]; try done. by left. }
  split. { apply (all_along_ok tasks_young); [apply tasks_young_ok|by vm_compute]. }
  split; [by apply elem_of_list_In; vm_compute; auto 10|].
  split; [|split; by vm_compute].
  intros zs zs' E. cbv zeta. enough (waits_due "c" (two_after 2 (lk_sub ++ zs)) = true) as H by (apply (waits_due_ok (λ _, demo_clock)) in H as []; done).
  revert E. apply (two_walk (waits_due "c")). by vm_compute.
Qed.
(** A process that ticks for ever. *)
Example C84_turns_case :
  let s n := if (n =? 0)%nat then RBegin 0 EvStart 0 else if (n mod 12 =? 0)%nat then RBegin 0 EvTick 0 else RCall (M := Z) 0 FOk in
  (∀ a, ∃ b, (a <= b)%nat ∧ ∃ f, s b = RCall 0 f) ∧ (∀ a, locked (two_after 1 (up_to s a))) ∧
  idle (two_after 1 (up_to s 0)) 0 ∧ ¬ idle (two_after 1 (up_to s 2)) 0 ∧ idle (two_after 1 (up_to s 12)) 0 ∧
  ¬ idle (two_after 1 (up_to s 14)) 0.
Proof.
  cbv zeta. split; [|split; [|split; [|split; [|split]]]].
  - intros a. exists (12 * a + 1)%nat. split; [lia|]. exists FOk. rewrite (proj2 (Nat.eqb_neq _ _)) by lia.
    rewrite Nat.mul_comm, Nat.add_comm, Nat.mod_add by lia. done.
  - apply one_locked.
  - eexists. split; by vm_compute.
  - apply not_idle. by vm_compute.
  - eexists. split; by vm_compute.
  - apply not_idle. by vm_compute.
Qed.
