(** What fails when backend calls fail: submissions, the limit, completions, slots. *)
From Verif Require Import Spec HistFacts FaultFacts CrashFacts FaultCases Demo.

Section theorems.
  Context {M : Type} `{SM : Serde M} {SO : SerdeOk M}.
  Context (prof : profile).
  Context (sched : string → option (time → option time)).
  Context (name : string).
  Context (clock : nat → time).
  Notation go := (sys_run prof sched name (mem_h clock)).
  Notation fstep faults := (sys_step prof sched name (faulty_h clock faults)).
  Notation qlist := (qlist name).
  Notation stored := (@stored M SM).

  (** C65.  Submitting a new id, or an id whose read fails, makes two writes: the id at the end of
      the waiting list, then the job.  The answer, the waiting list and the stored job for every way
      the two calls may fail.  Missing: that an error means "not accepted", which is false (below). *)
  Theorem C65_submission_partial faults (s : sys fworld M) (j : job M) c :
    let n := ops (sw s) in
    alive s = true → faults n ≠ FOk ∨ stored (fw (sw s)) (jid j) = None →
    let r := fstep faults s (EvEnqueue j c) in
    let pushed := match faults (S n) with FBefore => false | _ => true end in
    let written := match faults (S n), faults (S (S n)) with FOk, FBefore => false | FOk, _ => true | _, _ => false end in
    let acknowledged := match faults (S n), faults (S (S n)) with FOk, FOk => true | _, _ => false end in
    r.2 = RUnit (if acknowledged then Ok tt else Err ERedis) ∧
    (∀ st, qlist (fw (sw r.1)) st =
       (if pushed && bool_decide (st = Queued) then [jid j] else []) ++ qlist (fw (sw s)) st) ∧
    (∀ k, k ≠ jid j → stored (fw (sw r.1)) k = stored (fw (sw s)) k) ∧
    (if written
     then ∃ j' t, stored (fw (sw r.1)) (jid j) = Some j' ∧
            read_back (Job (set_enqueue_at (set_jstatus (ctx j) Queued) t) (data j)) j'
     else stored (fw (sw r.1)) (jid j) = stored (fw (sw s)) (jid j)) ∧
    tasks r.1 = tasks s ∧ alive r.1 = true.
  Proof. exact (submit_outcomes prof sched name clock faults s j c). Qed.

  (** C66.  Whatever the backend answers ([h] is any backend), one tick spawns at most
      max_processing_jobs tasks.  Missing: the bound for all tasks together, which is false (below). *)
  Theorem C66_tick_bound_partial {W} (h : handler W) (s : sys W M) :
    (length (tasks (sys_step prof sched name h s EvTick).1) <= length (tasks s) + max_processing_jobs (cfg s))%nat.
  Proof. exact (tick_length prof sched name h s). Qed.

  (** C67, C68.  The end of a successful execution of a one-time job without retries, for every way
      its backend calls may fail.  [orig] is the job as it was picked, [j] the one that was executed.
      Missing: that it is Finished, and that its slot is free, which are false (below). *)
  Theorem C67_C68_completion_partial faults (s : sys fworld M) i (orig j : job M) u :
    let n := ops (sw s) in
    let r := fstep faults s (EvTask i u) in
    let removed := faults n ≠ FBefore ∨
      faults (S n) ≠ FOk ∧ faults (S (S n)) = FOk ∧ faults (S (S (S n))) ≠ FBefore in
    alive s = true → tasks s !! i = Some (Task orig j AfterHook) → jid orig = jid j →
    jtype (ctx j) = Normal → jretry (ctx j) = None → ur_failed u = false →
    tasks r.1 = delete i (tasks s) ∧ alive r.1 = true ∧
    let ended (j0 : job M) st := ∃ j' t, stored (fw (sw r.1)) (jid j) = Some j' ∧
      read_back (Job (set_complete_at (set_jstatus (ctx j0) st) t) (data j0)) j' in
    match faults (S n), faults (S (S n)) with
    | FOk, _ => ended j Finished
    | FAfter, FBefore => ended j Finished
    | FBefore, FBefore => stored (fw (sw r.1)) (jid j) = stored (fw (sw s)) (jid j)
    | _, _ => ended orig Failed
    end ∧
    (removed → qlist (fw (sw r.1)) Running = filter (λ y, y ≠ jid j) (qlist (fw (sw s)) Running)) ∧
    (¬ removed → qlist (fw (sw r.1)) Running = qlist (fw (sw s)) Running).
  Proof. exact (completion prof sched name clock faults s i orig j u). Qed.

  (** C68 is false for every queue whose slots are occupied by ids without a task: without a restart
      and with no limit above [L] nothing runs any more, although every call succeeds. *)
  Theorem C68_slots_lost L (s : sys world M) es :
    alive s = true → tasks s = [] → (max_processing_jobs (cfg s) <= L)%nat →
    (L <= length (qlist (sw s) Running))%nat → Forall calm es → Forall (below L) es →
    let s' := go s es in
    alive s' = true ∧ tasks s' = [] ∧ runs s' = runs s ∧ qlist (sw s') Running = qlist (sw s) Running.
  Proof. exact (full_forever prof sched name clock L s es). Qed.
End theorems.

Definition case_step (f : nat → fault) := sys_step (M := Z) Debug demo_sched "q" (faulty_h demo_clock f).
Definition case_after (f : nat → fault) : list (event Z) → sys fworld Z := fafter Debug demo_sched "q" demo_clock f.
Definition at_call (k : nat) (f : fault) (n : nat) : fault := if Nat.eqb n k then f else FOk.
Definition run_a : event Z := EvEnqueue (demo_job "a" 1) new_re_run.
Definition run_b : event Z := EvEnqueue (demo_job "b" 1) new_re_run.
Definition one : event Z := EvConfig (WqConfig 100 1).

(** C65: the write of "a" takes effect but its answer is lost; run() reports an error, "a" executes. *)
Theorem C65_error_not_executed_refuted :
  let f := at_call 5 FAfter in
  let s := case_after f [EvStart] in
  (case_step f s run_a).2 = RUnit (Err ERedis) ∧
  map jid (runs (case_after f [EvStart; run_a; EvTick; EvTask 0 (demo_ok 1); EvTask 0 (demo_ok 1)])) = ["a"].
Proof. by vm_compute. Qed.
Example C65_case :
  let s := case_after (at_call 5 FAfter) [EvStart] in
  alive s = true ∧ ops (sw s) = 3%nat ∧ stored (M := Z) (fw (sw s)) "a" = None.
Proof. by vm_compute. Qed.
(** A failing read of a Queued job: it is queued a second time. *)
Example C65_case_read :
  let f := at_call 6 FBefore in
  let s := case_after f [EvStart; run_a] in
  alive s = true ∧ f (ops (sw s)) ≠ FOk ∧
  qlist "q" (fw (sw (case_step f s run_a).1)) Queued = ["a"; "a"].
Proof. by vm_compute. Qed.

(** C66: the limit is 1 and "a" executes; counting the executing jobs fails, the failure counts as
    none, and "b" is started too. *)
Definition over_hist : list (event Z) := [EvStart; one; run_a; EvTick; run_b; EvTick].
Theorem C66_limit_refuted :
  let s := case_after (at_call 15 FBefore) over_hist in
  max_processing_jobs (cfg s) = 1%nat ∧ map tid (tasks s) = ["a"; "b"] ∧
  qlist "q" (fw (sw s)) Running = ["b"; "a"].
Proof. by vm_compute. Qed.
Example C66_case : map tid (tasks (case_after (λ _, FOk) over_hist)) = ["a"].
Proof. by vm_compute. Qed.

(** C67: "a" succeeds and writes 5 into its payload; the answer to the write of its result is lost;
    it is stored as Failed, with the old payload and no execution counted. *)
Definition one_hist : list (event Z) :=
  [EvStart; one; run_a; run_b; EvTick; EvTask 0 (demo_ok 5); EvTask 0 (demo_ok 5); EvTask 0 (demo_ok 5)].
Theorem C67_success_is_finished_refuted :
  let f := at_call 18 FAfter in
  let s := case_after f (one_hist ++ [EvTask 0 (demo_ok 5)]) in
  map jid (runs s) = ["a"] ∧ tasks s = [] ∧
  (λ j : job Z, (jstatus (ctx j), run_count (ctx j), data j)) <$> stored (M := Z) (fw (sw s)) "a" =
    Some (Failed, 0%nat, 1) ∧
  qlist "q" (fw (sw s)) Running = [] ∧ qlist "q" (fw (sw s)) Failed = ["a"].
Proof. by vm_compute. Qed.
Example C67_case :
  let s := case_after (at_call 18 FAfter) one_hist in
  alive s = true ∧ ops (sw s) = 17%nat ∧ map jid (runs s) = ["a"] ∧
  (λ t : task Z, (jid (t_orig t), data (t_orig t), jid (t_job t), data (t_job t), run_count (ctx (t_job t)), t_phase t)) <$> tasks s !! 0%nat =
    Some ("a", 1, "a", 5, 1%nat, AfterHook) ∧
  (λ t : task Z, (jtype (ctx (t_job t)), jretry (ctx (t_job t)))) <$> tasks s !! 0%nat = Some (Normal, None).
Proof. by vm_compute. Qed.
(** Without the failure. *)
Example C67_case_ok :
  let s := case_after (λ _, FOk) (one_hist ++ [EvTask 0 (demo_ok 5)]) in
  (λ j : job Z, (jstatus (ctx j), run_count (ctx j), data j)) <$> stored (M := Z) (fw (sw s)) "a" =
    Some (Finished, 1%nat, 5).
Proof. by vm_compute. Qed.

(** C68: the limit is 1; the removal of "a" from the processing list fails.  "a" is Finished, all
    later calls succeed, "b" waits for ever. *)
Definition from_now_on (s : sys fworld Z) : sys world Z :=
  Sys (fw (sw s)) (cfg s) (tasks s) (alive s) (runs s).
Definition leaked : sys world Z :=
  from_now_on (case_after (at_call 17 FBefore) (one_hist ++ [EvTask 0 (demo_ok 5)])).
Lemma leak_stays (s : sys world Z) es :
  alive s = true → tasks s = [] → max_processing_jobs (cfg s) = 1%nat →
  length (qlist "q" (sw s) Running) = 1%nat → Forall calm es → Forall (below 1) es →
  tasks (sys_run Debug demo_sched "q" (mem_h demo_clock) s es) = [] ∧
  runs (sys_run Debug demo_sched "q" (mem_h demo_clock) s es) = runs s.
Proof.
  intros Ha Ht Hm Hl Hc Hb.
  destruct (C68_slots_lost Debug demo_sched "q" demo_clock 1 s es Ha Ht) as (_&H1&H2&_); try done.
  - by rewrite Hm.
  - by rewrite Hl.
Qed.
Theorem C68_slot_freed_refuted es :
  status_of leaked "a" = Some Finished ∧ qlist "q" (sw leaked) Queued = ["b"] ∧
  qlist "q" (sw leaked) Running = ["a"] ∧
  (Forall calm es → Forall (below 1) es →
   tasks (sys_run Debug demo_sched "q" (mem_h demo_clock) leaked es) = [] ∧
   runs (sys_run Debug demo_sched "q" (mem_h demo_clock) leaked es) = runs leaked).
Proof.
  split; [by vm_compute|]. split; [by vm_compute|]. split; [by vm_compute|].
  intros Hc Hb. apply leak_stays; try done; by vm_compute.
Qed.
Example C68_case :
  alive leaked = true ∧ tasks leaked = [] ∧ max_processing_jobs (cfg leaked) = 1%nat ∧
  length (qlist "q" (sw leaked) Running) = 1%nat ∧ map jid (runs leaked) = ["a"].
Proof. by vm_compute. Qed.
(** Without the failure "b" starts at the next tick. *)
Example C68_case_ok :
  map tid (tasks (case_after (λ _, FOk) (one_hist ++ [EvTask 0 (demo_ok 5); EvTick]))) = ["b"].
Proof. by vm_compute. Qed.

Print Assumptions C65_submission_partial.
Print Assumptions C65_error_not_executed_refuted.
Print Assumptions C66_tick_bound_partial.
Print Assumptions C66_limit_refuted.
Print Assumptions C67_C68_completion_partial.
Print Assumptions C67_success_is_finished_refuted.
Print Assumptions C68_slots_lost.
Print Assumptions C68_slot_freed_refuted.
