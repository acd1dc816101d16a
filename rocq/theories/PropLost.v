(** Cancelling a job while other processes work. *)
From Verif Require Import Spec SpecRace SpecLost BackendFacts RaceCases RaceLost LostCases Demo.

Section theorems.
  Context {M : Type} `{SM : Serde M} {SO : SerdeOk M}.
  Context (prof : nat → profile).
  Context (sched : nat → string → option (time → option time)).
  Context (name : nat → string).
  Context (clock : nat → nat → time).
  Notation race_after := (race_after prof sched name clock).
  Implicit Types xs ys : list (race_event M).

  (** C87: an id that waits in no list and is in no process's hands is not executed any more, unless it is
      submitted again, or retried ([b] = false), or, while its record is not done ([b] = true), cancelled.
      The continuation [xs] is any: overlapping steps, failing calls, deaths, new workers. *)
  Theorem C87_not_waiting id b n ys xs :
    let r := race_after n ys in
    at_rest id r → (∀ q, id ∉ qlist q (r_world r) Queued) →
    (b = true → ∀ j : job M, stored (r_world r) id = Some j → is_done j = false) →
    Forall (alone id b) xs →
    runs_in id (race_after n (ys ++ xs)) = runs_in id r.
  Proof. exact (lost_after prof sched name clock n ys id b xs). Qed.

  (** C87: a job cancelled while it waits, by a process that nobody interrupts, when no process is in the
      middle of a step, is not executed any more, unless it is submitted again or retried.
      Missing: that it is not if another process is in the middle of a tick, which is false (below). *)
  Theorem C87_cancel_partial i id j p n ys xs :
    let r := race_after n ys in
    at_rest id r → r_procs r !! i = Some p → p_alive p = true →
    stored (r_world r) id = Some j → jstatus (ctx j) = Queued →
    (∀ q, q ≠ name i → id ∉ qlist q (r_world r) Queued) →
    Forall (alone id false) xs →
    let r1 := race_after n (ys ++ cancel_alone i id) in
    let r2 := race_after n (ys ++ cancel_alone i id ++ xs) in
    r_answers r1 = r_answers r ++ [(i, EvCancel id, RUnit (Ok tt))] ∧
    (∃ j', stored (r_world r1) id = Some j' ∧ jstatus (ctx j') = Canceled) ∧
    runs_in id r2 = runs_in id r.
  Proof. exact (cancel_lost prof sched name clock i n ys p id j xs). Qed.
End theorems.
Print Assumptions C87_not_waiting.
Print Assumptions C87_cancel_partial.

(** C87 is false when a worker is in the middle of a tick: the move to the processing list takes whatever
    id is last in the waiting list (queue.rs:281-287), not the one that was read.  "a" has been cancelled,
    its record says so, it is in no list; then it is executed.  In its place "b" has been moved to the
    processing list, and it is never executed, whatever happens, unless it is submitted again or cancelled. *)
Theorem C87_cancel_overlap_refuted :
  ∃ xs ys : list (race_event Z), ∃ ja jb : job Z,
    let r := two_after 2 xs in let r' := two_after 2 (xs ++ ys) in
    jid ja = "a"%string ∧ jid jb = "b"%string ∧
    (1%nat, EvEnqueue ja new_re_run, RUnit (Ok tt)) ∈ r_answers r ∧
    (1%nat, EvEnqueue jb new_re_run, RUnit (Ok tt)) ∈ r_answers r ∧
    (1%nat, EvCancel "a", RUnit (Ok tt)) ∈ r_answers r ∧
    option_map (λ j : job Z, jstatus (ctx j)) (stored (r_world r) "a") = Some Canceled ∧
    "a"%string ∉ qlist "q" (r_world r) Queued ∧ r_runs r = [] ∧
    Forall (alone "a" false) ys ∧ map (jid ∘ snd) (r_runs r') = ["a"%string] ∧
    option_map (λ j : job Z, jstatus (ctx j)) (stored (r_world r') "b") = Some Queued ∧
    qlist "q" (r_world r') Running = ["b"%string] ∧
    ∀ zs, Forall (alone "b" true) zs → runs_in "b" (two_after 2 (xs ++ ys ++ zs)) = [].
Proof. exact cut_overlap. Qed.
Print Assumptions C87_cancel_overlap_refuted.

(** The client of the refutation cancels "a" before the worker ticks: only "b" is executed.  Retried, "a" is
    executed. *)
Definition cut_late : list (race_event Z) := RBegin 0 EvTick 0 :: go 0 9 ++ cut_rest.
Example C87_case :
  let r := two_after 2 cut_sub in
  let r2 := two_after 2 (cut_sub ++ cancel_alone 1 "a" ++ cut_late) in
  let r3 := two_after 2 (cut_sub ++ cancel_alone 1 "a" ++ cut_late ++ RBegin 1 (EvRetry "a") 0 :: go 1 9 ++ cut_late) in
  at_rest "a" r ∧ (∀ q, q ≠ "q"%string → "a"%string ∉ qlist q (r_world r) Queued) ∧
  qlist "q" (r_world r) Queued = ["b"%string; "a"%string] ∧ map p_alive (r_procs r) = [true; true] ∧
  option_map (λ j : job Z, jstatus (ctx j)) (stored (r_world r) "a") = Some Queued ∧
  Forall (alone "a" false) cut_late ∧
  map (jid ∘ snd) (r_runs r2) = ["b"%string] ∧ map (jid ∘ snd) (r_runs r3) = ["b"%string; "a"%string].
Proof.
  cbv zeta. split; [apply resting_ok; by vm_compute|]. split.
  { intros q Hne. apply (lacks_ok (format_queue_name "q" Queued)); [by vm_compute|]. by intros [? _]%queue_key_inj. }
  split; [by vm_compute|]. split; [by vm_compute|]. split; [by vm_compute|].
  split; [unfold cut_late, cut_rest, go; cbn [app repeat concat]; repeat (apply List.Forall_cons; [done|]); constructor|].
  split; by vm_compute.
Qed.
(** C87_not_waiting with [b] = true is used in the refutation for "b". *)
