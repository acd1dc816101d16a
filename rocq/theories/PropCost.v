(** How many backend calls a step makes. *)
From Verif Require Import Spec SpecCost CostFacts Demo.

Section theorems.
  Context {M : Type} `{SM : Serde M} {SO : SerdeOk M}.
  Context (prof : profile).
  Context (sched : string → option (time → option time)).
  Context (name : string).
  Context (clock : nat → time).
  Notation h := (mem_h clock).
  Notation step := (sys_step prof sched name h).
  Notation calls s e := (cost h (ev_prog prof sched name (cfg s) (tasks s) e) (sw s)).
  Notation qlist := (qlist name).
  Notation stored := (@stored M SM).

  (** C99.  The calls of a tick, in any state: one when no slot is free.  Otherwise two counts, [B] times a
      batch of at most twenty ids, two calls for each of the [L] ids that are looked at and one more for
      each job that starts.  With [n] waiting ids at most [n + 19] are looked at, and all [n] are unless
      every slot is taken: a tick with nothing to do reads and moves every waiting job. *)
  Theorem C99_tick (s : sys world M) :
    let n := length (qlist (sw s) Queued) in
    let started := (length (tasks (step s EvTick).1) - length (tasks s))%nat in
    alive s = true → Z.of_nat n <= i32_max →
    (free_slots name s = 0%nat → calls s EvTick = 1%nat) ∧
    ((0 < free_slots name s)%nat → ∃ B L, calls s EvTick = (2 + B + 2 * L + started)%nat ∧
      (started <= free_slots name s)%nat ∧ (1 <= B)%nat ∧ (20 * B <= n + 20)%nat ∧
      (L < n + 20)%nat ∧ (L <= 20 * B)%nat ∧
      ((started < free_slots name s)%nat → (n <= L)%nat)).
  Proof. exact (tick_calls prof sched name clock s). Qed.
  (** The same in two lines. *)
  Theorem C99_tick_bounds (s : sys world M) :
    let n := length (qlist (sw s) Queued) in
    let started := (length (tasks (step s EvTick).1) - length (tasks s))%nat in
    alive s = true → Z.of_nat n <= i32_max →
    (calls s EvTick <= 41 + n / 20 + 2 * n + free_slots name s)%nat ∧
    ((started < free_slots name s)%nat → (3 + 2 * n + started <= calls s EvTick)%nat).
  Proof. exact (tick_bounds prof sched name clock s). Qed.
  (** A start is a tick with the default configuration. *)
  Theorem C99_start c (ts : list (task M)) w :
    cost h (ev_prog prof sched name c ts EvStart) w =
    cost h (ev_prog prof sched name wq_config_default [] (@EvTick M)) w.
  Proof. exact (start_cost prof sched name clock c ts w). Qed.

  (** Every other step makes at most five calls, on every backend and whatever it answers. *)
  Theorem C99_others {W} (b : handler W) c ts (e : event M) w :
    e ≠ EvTick → e ≠ EvStart → (cost b (ev_prog prof sched name c ts e) w <= most_calls e)%nat.
  Proof. exact (other_cost prof sched name b c ts e w). Qed.
  (** In memory the numbers are known. *)
  Theorem C99_submit c ts (j : job M) ec w :
    cost h (ev_prog prof sched name c ts (EvEnqueue j ec)) w =
    match stored w (jid j) with
    | None => 3%nat
    | Some ex => (1 + (if override_data ec && negb (is_running ex) then 1 else 0)
                    + if re_run ec && is_done ex then 2 else 0)%nat
    end.
  Proof. exact (mem_submit_cost prof sched name clock c ts j ec w). Qed.
  Theorem C99_cancel c ts id w :
    cost h (ev_prog prof sched name c ts (@EvCancel M id)) w =
    match stored w id with Some j => if is_queued j then 3%nat else 1%nat | None => 1%nat end.
  Proof. exact (mem_cancel_cost prof sched name clock c ts id w). Qed.
  Theorem C99_retry c ts id w :
    cost h (ev_prog prof sched name c ts (@EvRetry M id)) w =
    match stored w id with Some j => if is_done j then 4%nat else 1%nat | None => 1%nat end.
  Proof. exact (mem_retry_cost prof sched name clock c ts id w). Qed.
  Theorem C99_end (s : sys world M) i orig j u :
    alive s = true → tasks s !! i = Some (Task orig j AfterHook) →
    alive (step s (EvTask i u)).1 = true →
    calls s (EvTask i u) = 3%nat.
  Proof. exact (mem_end_cost prof sched name clock s i orig j u). Qed.

  (** On Redis every step of every history makes the same number of calls. *)
  Theorem C99_redis (es : list (event M)) e :
    let s := sys_run prof sched name h (sys_init world_empty) es in
    let r := sys_run prof sched name (redis_h clock) (sys_init rworld_empty) es in
    cost (redis_h clock) (ev_prog prof sched name (cfg r) (tasks r) e) (sw r) = calls s e.
  Proof. exact (redis_cost_history prof sched name clock es e). Qed.
End theorems.
Print Assumptions C99_tick.
Print Assumptions C99_tick_bounds.
Print Assumptions C99_start.
Print Assumptions C99_others.
Print Assumptions C99_submit.
Print Assumptions C99_cancel.
Print Assumptions C99_retry.
Print Assumptions C99_end.
Print Assumptions C99_redis.

Definition cost_of (s : sys world Z) (e : event Z) : nat :=
  cost (mem_h demo_clock) (ev_prog Debug demo_sched "q" (cfg s) (tasks s) e) (sw s).
Definition later_job (k : nat) : job Z :=
  set_ctx (demo_job (String (Ascii.ascii_of_nat (65 + k)) "") 0)
    (set_jtype (ctx (demo_job (String (Ascii.ascii_of_nat (65 + k)) "") 0)) (ScheduledAt 1000000000000)).

(** Twenty-five jobs that are not due: the two batches of a tick look at forty ids, fifteen of them for the
    second time, and 84 calls are made.  With one due job among three waiting ones: 2 + 1 + 6 + 1 calls. *)
Example C99_case :
  let s := demo_after (EvStart :: map (λ k, ev_run (later_job k)) (seq 0 25)) in
  let s3 := demo_after [EvStart; ev_run (later_job 1); ev_run (demo_job "due" 1); ev_run (later_job 2)] in
  (length (qlist "q" (sw s) Queued), free_slots "q" s, cost_of s EvTick) = (25, 20, 84)%nat ∧
  (cost_of s3 EvTick, length (tasks (demo_step s3 EvTick).1)) = (10, 1)%nat ∧
  cost_of s (EvEnqueue (later_job 1) new_re_run) = 2%nat ∧
  cost_of s (EvCancel "B") = 3%nat ∧ cost_of s (EvCancel "none") = 1%nat.
Proof. by vm_compute. Qed.
(** The most a task can make: the job cannot be stored after it was removed from the processing list
    (here because that one call fails), and is then marked as failed. *)
Example C99_five_case :
  let s := sys_run Debug demo_sched "q" (faulty_h demo_clock (λ n, if decide (n = 13%nat) then FBefore else FOk))
    (sys_init (FWorld world_empty 0))
    [EvStart; ev_run (demo_job "a" 1); EvTick; EvTask 0 (demo_ok 1); EvTask 0 (demo_ok 1); EvTask 0 (demo_ok 1)] in
  (ops (sw s), cost (faulty_h demo_clock (λ n, if decide (n = 13%nat) then FBefore else FOk))
    (ev_prog Debug demo_sched "q" (cfg s) (tasks s) (EvTask 0 (demo_ok 1))) (sw s)) = (12, 5)%nat.
Proof. by vm_compute. Qed.
