(** Crashes, panics and failing backend calls. *)
From Verif Require Import Spec HistFacts FaultFacts OrphanFacts CrashFacts Demo.

Section theorems.
  Context {M : Type} `{SM : Serde M} {SO : SerdeOk M}.
  Context (prof : profile).
  Context (sched : string → option (time → option time)).
  Context (name : string).
  Context (clock : nat → time).
  Notation after := (after prof sched name clock).
  Notation ok_hist := (ok_hist prof sched name clock).
  Notation step := (sys_step prof sched name (mem_h clock)).
  Notation go := (sys_run prof sched name (mem_h clock)).
  Notation fstep faults := (sys_step prof sched name (faulty_h clock faults)).
  Notation fafter := (fafter prof sched name clock).
  Notation qlist := (qlist name).
  Notation times_in := (times_in name).
  Notation stored := (@stored M SM).
  Implicit Types es : list (event M).

  (** With no faults the fault-injecting backend is the in-memory one. *)
  Theorem fault_free_backend {A} (p : prog A) w n :
    let r := run (faulty_h clock (λ _, FOk)) p (FWorld w n) in
    (fw r.1, r.2) = run (mem_h clock) p w.
  Proof. exact (fault_free clock p w n). Qed.

  (** C36.  [es1] and [es2] are arbitrary: crashes, crashes inside a step after any number of backend
      calls, panics, restarts, submissions of arbitrary jobs; any backend call may fail, before or
      after its effect. *)
  Theorem C36_acknowledged_not_lost faults es1 (j : job M) ec es2 :
    let s := fafter faults (es1 ++ EvEnqueue j ec :: es2) in
    (fstep faults (fafter faults es1) (EvEnqueue j ec)).2 = RUnit (Ok tt) →
    (∀ e, e ∈ es1 ++ es2 → ¬ cancels (jid j) e) →
    jid j ∈ qlist (fw (sw s)) Queued ∨ jid j ∈ qlist (fw (sw s)) Running ∨
    jid j ∈ map jid (runs s).
  Proof. exact (not_lost prof sched name clock faults es1 j ec es2). Qed.

  (** C37 is false for every interrupted job: whatever follows ([es2] is arbitrary: restarts, API
      calls, ticks, crashes at any point), it stays Running, in the processing list, and its user
      code is never started again. *)
  Theorem C37_interrupted_stays es1 t e es2 :
    ok_hist initial es1 → t ∈ tasks (after es1) → e = EvCrash ∨ e = EvPanic →
    let s := after (es1 ++ e :: es2) in
    status_of s (tid t) = Some Running ∧ tid t ∈ qlist (sw s) Running ∧
    tid t ∉ qlist (sw s) Queued ∧ tasks_of (tid t) s = [] ∧
    runs_of (tid t) s = runs_of (tid t) (after es1).
  Proof. exact (interrupted prof sched name clock es1 t e es2). Qed.

  (** C38 is false: with [n >= 20] jobs in the processing list at a crash, nothing runs any more,
      unless the limit is set above [n]. *)
  Theorem C38_slots_never_freed es1 e es2 :
    let n := length (qlist (sw (after es1)) Running) in
    ok_hist initial es1 → e = EvCrash ∨ e = EvPanic → (20 <= n)%nat →
    (max_processing_jobs (cfg (after es1)) <= n)%nat → Forall (below n) es2 →
    alive (after es1) = true →
    let s := after (es1 ++ e :: es2) in tasks s = [] ∧ runs s = runs (after es1).
  Proof. exact (slots_never_freed prof sched name clock es1 e es2). Qed.

  (** C39: where the process dies inside the submission of a new job decides.  After two or three
      effects (read, push, clock) the id waits without a stored job. *)
  Theorem C39_crash_points (s : sys world M) (j : job M) c n :
    alive s = true → stored (sw s) (jid j) = None → jid j ∉ qlist (sw s) Queued →
    let w := sw (step s (EvCrashIn (EvEnqueue j c) n)).1 in
    ((n <= 1)%nat → w = sw s) ∧
    ((2 <= n <= 3)%nat →
       qlist w Queued = jid j :: qlist (sw s) Queued ∧ stored w (jid j) = None) ∧
    ((4 <= n)%nat → qlist w Queued = jid j :: qlist (sw s) Queued ∧
       ∃ j', stored w (jid j) = Some j' ∧ jstatus (ctx j') = Queued).
  Proof. exact (crash_in_run prof sched name clock s j c n). Qed.
  (** Submitting it again then queues it a second time. *)
  Theorem C39_repeat_duplicates (s : sys world M) (j : job M) c :
    alive s = true → stored (sw s) (jid j) = None → jid j ∈ qlist (sw s) Queued →
    times_in (step s (EvEnqueue j c)).1 Queued (jid j) = S (times_in s Queued (jid j)).
  Proof. exact (repeat_duplicates prof sched name clock s j c). Qed.

  (** C40 without failing calls: as long as the queue lives, every id in the processing list has a
      task.  Missing: failing backend calls, for which it is false. *)
  Theorem C40_picked_have_tasks_partial es id :
    ok_hist initial (EvStart :: es) → Forall calm es → alive (after (EvStart :: es)) = true →
    id ∈ qlist (sw (after (EvStart :: es))) Running → tasks_of id (after (EvStart :: es)) ≠ [].
  Proof. intros H1 H2 H3. exact (picked_served prof sched name clock es H1 H2 H3 id). Qed.

  (** A job in the processing list without a task, however it came there, is never run again. *)
  Theorem C40_orphan_stays (s : sys world M) id (j : job M) es :
    (∀ k j', stored (sw s) k = Some j' → jid j' = k) →
    stored (sw s) id = Some j → jstatus (ctx j) = Running →
    id ∈ qlist (sw s) Running → id ∉ qlist (sw s) Queued →
    (∀ t, t ∈ tasks s → jid (t_orig t) ≠ id ∧ jid (t_job t) ≠ id) →
    stored (sw (go s es)) id = Some j ∧ runs_of id (go s es) = runs_of id s ∧
    id ∈ qlist (sw (go s es)) Running.
  Proof. exact (orphan_stays prof sched name clock s id j es). Qed.

  (** C41 is false in every state: if the read fails, cancel_job answers Ok, retry_job answers
      Ok(false), get_job answers None, and nothing changes. *)
  Theorem C41_errors_swallowed faults (s : sys fworld M) id :
    alive s = true → faults (ops (sw s)) ≠ FOk →
    let s' := Sys (FWorld (fw (sw s)) (S (ops (sw s)))) (cfg s) (tasks s) (alive s) (runs s) in
    fstep faults s (EvCancel id) = (s', RUnit (Ok tt)) ∧
    fstep faults s (EvRetry id) = (s', RBool (Ok false)) ∧
    fstep faults s (EvGet id) = (s', RJob None).
  Proof. exact (failing_cancel prof sched name clock faults s id). Qed.
  (** And run() queues the job, whatever is stored, waiting or running under its id. *)
  Theorem C41_run_ignores_errors faults (s : sys fworld M) (j : job M) c :
    let n := ops (sw s) in
    alive s = true → faults n ≠ FOk → faults (S n) = FOk → faults (S (S n)) = FOk →
    let r := fstep faults s (EvEnqueue j c) in
    r.2 = RUnit (Ok tt) ∧
    qlist (fw (sw r.1)) Queued = jid j :: qlist (fw (sw s)) Queued ∧
    ∃ j', stored (fw (sw r.1)) (jid j) = Some j' ∧ jstatus (ctx j') = Queued.
  Proof. exact (failing_run prof sched name clock faults s j c). Qed.

  (** C42 is false in every state: after a panic of user code nothing happens any more in this
      process, and every API call fails. *)
  Theorem C42_panic_stops_queue (s : sys world M) es :
    Forall no_start es →
    let s' := (step s EvPanic).1 in
    alive s' = false ∧ go s' es = s' ∧ ∀ e, no_start e → step (go s' es) e = (s', dead_response e).
  Proof.
    intros Hes s'. assert (alive s' = false) as H by (unfold s', sys_step; destruct (alive s) eqn:E; done).
    split; [exact H|]. exact (dead_forever prof sched name clock s' es H Hes).
  Qed.
End theorems.

(** ** Concrete cases *)

Notation demo_fafter faults := (fafter (M := Z) Debug demo_sched "q" demo_clock faults).
Notation demo_fstep faults := (sys_step (M := Z) Debug demo_sched "q" (faulty_h demo_clock faults)).
Definition no_faults (n : nat) : fault := FOk.
Definition fault_at (k : nat) (f : fault) (n : nat) : fault := if Nat.eqb n k then f else FOk.

(** A history for C36: "a" is acknowledged; the push of "b" succeeds but reports an error; the process
    dies in the middle of a tick. *)
Definition lossy : nat → fault := fault_at 7 FAfter.
Definition lossy_hist : list (event Z) :=
  [EvEnqueue (demo_job "b" 2) new_re_run; EvCrashIn EvTick 6; EvStart].
Example C36_case :
  (demo_fstep lossy (demo_fafter lossy [EvStart]) (EvEnqueue (demo_job "a" 1) new_re_run)).2 = RUnit (Ok tt) ∧
  (∀ e, e ∈ [EvStart] ++ lossy_hist → ¬ cancels "a" e).
Proof.
  split; [by vm_compute|]. intros e He. unfold lossy_hist in He.
  repeat (apply elem_of_cons in He as [->|He]; [cbn; tauto|]). by apply elem_of_nil in He.
Qed.
Example C36_case_state :
  let s := demo_fafter lossy (EvStart :: EvEnqueue (demo_job "a" 1) new_re_run :: lossy_hist) in
  (qlist "q" (fw (sw s)) Queued, qlist "q" (fw (sw s)) Running) = (["b"], ["a"]).
Proof. by vm_compute. Qed.

(** C37: "a" is executing when the process dies. *)
Definition crash_hist : list (event Z) :=
  [EvStart; EvEnqueue (demo_job "a" 1) new_re_run; EvTick; EvTask 0 (demo_ok 1); EvTask 0 (demo_ok 1)].
Lemma crash_hist_ok : ok_hist Debug demo_sched "q" demo_clock initial crash_hist.
Proof. apply plain_ok. repeat constructor. Qed.
Example C37_case :
  map tid (tasks (demo_after crash_hist)) = ["a"] ∧ length (runs (demo_after crash_hist)) = 1%nat.
Proof. by vm_compute. Qed.
Example C37_case_later :
  let s := demo_after (crash_hist ++ EvCrash ::
    [EvStart; EvTick; EvRetry "a"; EvCancel "a"; EvEnqueue (demo_job "a" 5) new_re_run; EvTick]) in
  (status_of s "a", qlist "q" (sw s) Queued, tasks s, map jid (runs s)) = (Some Running, [], [], ["a"]).
Proof. by vm_compute. Qed.
Theorem C37_interrupted_refuted :
  ¬ ∀ es1 t, ok_hist Debug demo_sched "q" demo_clock initial es1 → t ∈ tasks (demo_after es1) →
      ∃ es2, let s := demo_after (es1 ++ EvCrash :: es2) in
        runs_of (tid t) s ≠ runs_of (tid t) (demo_after es1) ∨ status_of s (tid t) ≠ Some Running.
Proof.
  intros H.
  destruct (tasks (demo_after crash_hist)) as [|t l] eqn:Et; [by vm_compute in Et|].
  assert (t ∈ tasks (demo_after crash_hist)) as Hin by (rewrite Et; left).
  destruct (H crash_hist t crash_hist_ok Hin) as [es2 Hn].
  destruct (C37_interrupted_stays Debug demo_sched "q" demo_clock crash_hist t EvCrash es2
    crash_hist_ok Hin (or_introl eq_refl)) as (H1&_&_&_&H2).
  destruct Hn as [Hn|Hn]; [exact (Hn H2)|exact (Hn H1)].
Qed.

(** C38: 20 jobs executing when the process dies; "x" never runs. *)
Definition id_of (n : nat) : string := String (Ascii.ascii_of_nat (65 + n)) "".
Definition full_hist : list (event Z) :=
  EvStart :: map (λ n, EvEnqueue (demo_job (id_of n) 0) new_re_run) (seq 0 20) ++ [EvTick].
Example C38_case :
  let s := demo_after full_hist in
  length (qlist "q" (sw s) Running) = 20%nat ∧ max_processing_jobs (cfg s) = 20%nat ∧ alive s = true ∧
  length (tasks s) = 20%nat.
Proof. by vm_compute. Qed.
Lemma full_hist_ok : ok_hist Debug demo_sched "q" demo_clock initial full_hist.
Proof. apply plain_ok. repeat constructor. Qed.
Definition restarted (n : nat) : list (event Z) :=
  EvStart :: EvEnqueue (demo_job "x" 1) new_re_run :: repeat EvTick n.
Lemma full_forever es n :
  ok_hist Debug demo_sched "q" demo_clock initial es →
  (let s := demo_after es in
   length (qlist "q" (sw s) Running) = 20%nat ∧ max_processing_jobs (cfg s) = 20%nat ∧ alive s = true ∧
   length (tasks s) = 20%nat) →
  tasks (demo_after (es ++ EvCrash :: restarted n)) = [].
Proof.
  unfold demo_after. intros Hok (H1&H2&H3&_).
  apply (C38_slots_never_freed Debug demo_sched "q" demo_clock es EvCrash (restarted n) Hok (or_introl eq_refl)).
  - by rewrite H1.
  - by rewrite H1, H2.
  - constructor; [exact Logic.I|]. constructor; [exact Logic.I|]. induction n as [|n IH]; constructor; [exact Logic.I|exact IH].
  - exact H3.
Qed.
Theorem C38_restart_frees_slots_refuted n :
  tasks (demo_after (full_hist ++ EvCrash :: restarted n)) = [].
Proof. exact (full_forever full_hist n full_hist_ok C38_case). Qed.

(** C39: the process dies inside run("a"), the caller repeats it: "a" executes twice, at the same
    time. *)
Definition repeat_hist : list (event Z) :=
  [EvStart; EvCrashIn (EvEnqueue (demo_job "a" 1) new_re_run) 2; EvStart;
   EvEnqueue (demo_job "a" 1) new_re_run; EvTick; EvTick;
   EvTask 0 (demo_ok 1); EvTask 0 (demo_ok 1); EvTask 1 (demo_ok 1); EvTask 1 (demo_ok 1)].
Theorem C39_repeat_refuted :
  let s := demo_after repeat_hist in
  map tid (tasks s) = ["a"; "a"] ∧ map t_phase (tasks s) = [InUser; InUser] ∧ map jid (runs s) = ["a"; "a"].
Proof. by vm_compute. Qed.
Example C39_case :
  let s := demo_after [EvStart] in
  alive s = true ∧ stored (M := Z) (sw s) "a" = None ∧ qlist "q" (sw s) Queued = [].
Proof. by vm_compute. Qed.
Example C39_case_repeat :
  let s := demo_after [EvStart; EvCrashIn (EvEnqueue (demo_job "a" 1) new_re_run) 3; EvStart] in
  alive s = true ∧ stored (M := Z) (sw s) "a" = None ∧ qlist "q" (sw s) Queued = ["a"].
Proof. by vm_compute. Qed.
(** The same without a crash: the write of the job fails, run() reports it, the caller repeats it. *)
Example C39_case_fault :
  let f := fault_at 5 FBefore in
  let run_a := EvEnqueue (demo_job "a" 1) new_re_run in
  (demo_fstep f (demo_fafter f [EvStart]) run_a).2 = RUnit (Err ERedis) ∧
  map tid (tasks (demo_fafter f [EvStart; run_a; run_a; EvTick; EvTick])) = ["a"; "a"].
Proof. by vm_compute. Qed.

(** C40: the move of "b" fails in a tick that has already moved "a". *)
Example C40_case :
  let s := demo_after [EvStart; EvEnqueue (demo_job "a" 1) new_re_run; EvTick] in
  alive s = true ∧ qlist "q" (sw s) Running = ["a"] ∧ map tid (tasks_of "a" s) = ["a"].
Proof. by vm_compute. Qed.
Definition drop_hist : list (event Z) :=
  [EvStart; EvEnqueue (demo_job "a" 1) new_re_run; EvEnqueue (demo_job "b" 1) new_re_run; EvTick].
Definition now_reliable (s : sys fworld Z) : sys world Z :=
  Sys (fw (sw s)) (cfg s) (tasks s) (alive s) (runs s).
Definition dropped : sys world Z := now_reliable (demo_fafter (fault_at 17 FBefore) drop_hist).
Lemma dropped_stays f hist es :
  let s0 := now_reliable (demo_fafter f hist) in
  alive s0 = true → status_of s0 "a" = Some Running → qlist "q" (sw s0) Running = ["a"] →
  qlist "q" (sw s0) Queued = ["b"] → tasks s0 = [] → runs s0 = [] →
  alive s0 = true ∧ qlist "q" (sw s0) Running = ["a"] ∧
  let s := sys_run Debug demo_sched "q" (mem_h demo_clock) s0 es in
  runs_of "a" s = [] ∧ "a" ∈ qlist "q" (sw s) Running.
Proof.
  intros s0 Ha Hst Hr Hq Ht Hrs. split; [done|]. split; [done|]. unfold status_of in Hst.
  destruct (stored (M := Z) (sw s0) "a") as [j|] eqn:Ej; [|done]. injection Hst as Hst.
  pose proof (keyed_faulty Debug demo_sched "q" demo_clock f hist) as Hk.
  destruct (C40_orphan_stays Debug demo_sched "q" demo_clock s0 "a" j es) as (_&H2&H3); [exact Hk|done|done| | | |].
  - rewrite Hr. left.
  - rewrite Hq. apply (bool_decide_unpack _). done.
  - rewrite Ht. intros t H. by apply elem_of_nil in H.
  - split; [|exact H3]. unfold runs_of in *. rewrite H2, Hrs. done.
Qed.
Theorem C40_picked_executed_refuted es :
  alive dropped = true ∧ qlist "q" (sw dropped) Running = ["a"] ∧
  let s := sys_run Debug demo_sched "q" (mem_h demo_clock) dropped es in
  runs_of "a" s = [] ∧ "a" ∈ qlist "q" (sw s) Running.
Proof. apply (dropped_stays (fault_at 17 FBefore) drop_hist es); by vm_compute. Qed.

(** C41: "a" waits, then executes; the failing read lets cancel_job answer Ok and run() queue "a"
    again, so that it executes twice at the same time. *)
Definition wait_hist : list (event Z) := [EvStart; EvEnqueue (demo_job "a" 1) new_re_run].
Theorem C41_read_errors_refuted :
  let f := fault_at 6 FBefore in
  let s := demo_fafter f wait_hist in
  (demo_fstep f s (EvCancel "a")).2 = RUnit (Ok tt) ∧
  map jid (runs (demo_fafter f (wait_hist ++ [EvCancel "a"; EvTick; EvTask 0 (demo_ok 1); EvTask 0 (demo_ok 1)]))) = ["a"] ∧
  map tid (tasks (demo_fafter (fault_at 12 FBefore)
    (wait_hist ++ [EvTick; EvEnqueue (demo_job "a" 1) new_re_run; EvTick]))) = ["a"; "a"].
Proof. by vm_compute. Qed.
Example C41_case :
  let f := fault_at 6 FBefore in
  let s := demo_fafter f wait_hist in
  alive s = true ∧ ops (sw s) = 6%nat ∧ f 6%nat = FBefore ∧ f 7%nat = FOk ∧ f 8%nat = FOk.
Proof. by vm_compute. Qed.

(** C42: "a" panics, "b" waits. *)
Lemma panic_forever (es : list (event Z)) n :
  demo_after ((es ++ [EvPanic]) ++ repeat EvTick n) = demo_after (es ++ [EvPanic]).
Proof.
  unfold demo_after, after, sys_run. rewrite !fold_left_app. cbn [fold_left].
  apply C42_panic_stops_queue. induction n as [|n IH]; constructor; [exact Logic.I|exact IH].
Qed.
Definition panic_hist : list (event Z) := crash_hist ++ [EvEnqueue (demo_job "b" 1) new_re_run].
Theorem C42_panic_refuted n :
  let s := demo_after ((panic_hist ++ [EvPanic]) ++ repeat EvTick n) in
  qlist "q" (sw s) Queued = ["b"] ∧ map jid (runs s) = ["a"] ∧
  (demo_step s (EvEnqueue (demo_job "c" 1) new_re_run)).2 = RUnit (Err EMailbox).
Proof. rewrite panic_forever. by vm_compute. Qed.

Print Assumptions fault_free_backend.
Print Assumptions C36_acknowledged_not_lost.
Print Assumptions C37_interrupted_stays.
Print Assumptions C38_slots_never_freed.
Print Assumptions C39_crash_points.
Print Assumptions C39_repeat_duplicates.
Print Assumptions C40_picked_have_tasks_partial.
Print Assumptions C40_orphan_stays.
Print Assumptions C41_errors_swallowed.
Print Assumptions C41_run_ignores_errors.
Print Assumptions C42_panic_stops_queue.
Print Assumptions C37_interrupted_refuted.
Print Assumptions C38_restart_frees_slots_refuted.
Print Assumptions C39_repeat_refuted.
Print Assumptions C40_picked_executed_refuted.
Print Assumptions C41_read_errors_refuted.
Print Assumptions C42_panic_refuted.
