(** C13 and C12 for waiting lists of any length, 2^31 ids and more included. *)
From Verif Require Import Spec LongFacts.
Open Scope Z_scope.

Section theorems.
  Context {M : Type} `{SM : Serde M} {SO : SerdeOk M}.
  Context (prof : profile).
  Context (sched : string → option (time → option time)).
  Context (name : string).
  Context (clock : nat → time).
  Notation qlist := (qlist name).
  Notation step := (sys_step prof sched name (mem_h clock)).
  Implicit Types w : world.
  Implicit Types s : sys world M.

  (** C13 without a bound on the length: whatever the backend holds, picking never runs forever and
      never answers with an error.  The only other outcome is a panic, in a debug build, with 2^31
      waiting ids or more. *)
  Theorem C13_any_length max w :
    let o := (run (mem_h clock) (pick_jobs_to_process (M := M) prof name max) w).2 in
    (∃ js, o = Done (Ok js)) ∨
    o = Panicked ∧ prof = Debug ∧ i32_max < Z.of_nat (length (qlist w Queued)).
  Proof. exact (pick_long prof name clock max w). Qed.

  (** The panic happens: the count of the waiting ids, cut to 32 bits, is negative, and subtracting the
      size of a batch overflows.  The queue is dead after that tick. *)
  Theorem C13_panics s :
    prof = Debug → alive s = true →
    i32_max < Z.of_nat (length (qlist (sw s) Queued)) <= i32_max + 20 →
    (length (qlist (sw s) Running) < max_processing_jobs (cfg s))%nat →
    alive (step s EvTick).1 = false.
  Proof. exact (tick_panics prof sched name clock s). Qed.

  (** With a few more ids the loop stops after the first batch in either build: the tick starts at most
      20 jobs, whatever the number of free slots. *)
  Theorem C12_one_batch s :
    2147483668 <= Z.of_nat (length (qlist (sw s) Queued)) <= 4294967296 →
    (length (tasks (step s EvTick).1) <= length (tasks s) + 20)%nat.
  Proof. exact (tick_one_batch prof sched name clock s). Qed.
End theorems.

(** So the bound in C12 and C13 is needed: a history of submissions only, after which every waiting job
    is due and there are 100 free slots, and the tick kills the queue ... *)
Theorem C13_no_panic_refuted {M} `{SM : Serde M} {SO : SerdeOk M} sched name clock (d : M) :
  ∃ es : list (event M), let s := after Debug sched name clock es in
    ok_hist Debug sched name clock initial es ∧ alive s = true ∧ free_slots name s = 100%nat ∧
    alive (sys_step Debug sched name (mem_h clock) s EvTick).1 = false.
Proof. exact (panic_reached sched name clock d). Qed.
(** ... or starts 20 jobs at most. *)
Theorem C12_long_list_refuted {M} `{SM : Serde M} {SO : SerdeOk M} prof sched name clock (d : M) :
  ∃ es : list (event M), let s := after prof sched name clock es in
    ok_hist prof sched name clock initial es ∧ alive s = true ∧ free_slots name s = 100%nat ∧ tasks s = [] ∧
    (2 ^ 31 < Z.of_nat (length (qlist name (sw s) Queued))) ∧
    (∀ id, id ∈ qlist name (sw s) Queued → ∃ j : job M, stored (sw s) id = Some j ∧ ∀ t, due j t) ∧
    (length (tasks (sys_step prof sched name (mem_h clock) s EvTick).1) <= 20)%nat.
Proof. exact (one_batch_reached prof sched name clock d). Qed.

Print Assumptions C13_any_length.
Print Assumptions C13_panics.
Print Assumptions C12_one_batch.
Print Assumptions C13_no_panic_refuted.
Print Assumptions C12_long_list_refuted.
