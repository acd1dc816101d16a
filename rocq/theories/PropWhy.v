(** What the status of a job tells about what has happened. *)
From Verif Require Import SpecWhy HistFacts SubmitFacts WhyFacts Demo.
Open Scope Z_scope.

Section theorems.
  Context {M : Type} `{SM : Serde M} {SO : SerdeOk M}.
  Context (prof : profile).
  Context (sched : string → option (time → option time)).
  Context (name : string).
  Context (clock : nat → time).
  Notation after := (after prof sched name clock).
  Notation ok_hist := (ok_hist prof sched name clock).
  Implicit Types es : list (event M).

  (** C95.  In an orderly history, a job came into its status by the event that the status stands for, and has had
      it ever since.  Missing: late second messages of update_job and backend failures, for which it is false. *)
  Theorem C95_why_partial es id st :
    ok_hist initial es → status_of (after es) id = Some st →
    ∃ es1 e es2, es = es1 ++ e :: es2 ∧ status_of (after es1) id ≠ Some st ∧
      came sched (clock_between clock (after es1) (after (es1 ++ [e]))) (after es1) e id st ∧
      ∀ l, l `prefix_of` es2 → status_of (after (es1 ++ e :: l)) id = Some st.
  Proof. exact (why prof sched name clock es id st). Qed.
  (** Finished and Failed tell how the last call of the user code for this job ended. *)
  Theorem C95_over_partial es id st :
    ok_hist initial es → status_of (after es) id = Some st → st = Finished ∨ st = Failed →
    ∃ es1 i u es2 t j, es = es1 ++ EvTask i u :: es2 ∧
      tasks (after es1) !! i = Some t ∧ t_phase t = AfterHook ∧ tid t = id ∧
      list.last (runs_of id (after es)) = Some j ∧ ctx j = ctx (t_job t) ∧
      ur_failed u = bool_decide (st = Failed).
  Proof. exact (over prof sched name clock es id st). Qed.
  (** Running: it is being executed, or the process has been gone since it was taken. *)
  Theorem C95_running_partial es id :
    ok_hist initial es → status_of (after es) id = Some Running →
    ∃ es1 e es2, es = es1 ++ e :: es2 ∧ (e = EvTick ∨ e = EvStart) ∧ status_of (after es1) id = Some Queued ∧
      ((∃ t, t ∈ tasks (after es) ∧ tid t = id) ∨ ∃ l, l `prefix_of` es2 ∧ alive (after (es1 ++ e :: l)) = false).
  Proof. exact (running prof sched name clock es id). Qed.
End theorems.
Print Assumptions C95_why_partial.
Print Assumptions C95_over_partial.
Print Assumptions C95_running_partial.

(** "a" is tried up to five times, "b" is not, "c" never gets a slot and is canceled. *)
Definition why_a : job Z := job_set_retry (demo_job "a" 1) (Retry 0 (Some 5) (Interval 1000000000)).
Definition why_demo : list (event Z) :=
  [EvStart; EvConfig (WqConfig 1 2); ev_run why_a; ev_run (demo_job "b" 2); ev_run (demo_job "c" 3); EvTick] ++
  demo_polls 0 (demo_fail 1) ++ demo_polls 0 (demo_fail 2) ++ [EvCancel "c"; EvTick].
Example C95_example :
  ok_hist Debug demo_sched "q" demo_clock initial why_demo ∧
  map (status_of (demo_after why_demo)) ["a"; "b"; "c"; "d"] = [Some Queued; Some Failed; Some Canceled; None] ∧
  let es := why_demo ++ [EvRetry "c"; EvRetry "b"; EvTick] ++ demo_polls 0 (demo_ok 5) ++ [EvTask 0 (demo_ok 4)] in
  ok_hist Debug demo_sched "q" demo_clock initial es ∧
  map (status_of (demo_after es)) ["a"; "b"; "c"; "d"] = [Some Queued; Some Running; Some Finished; None] ∧
  map (λ t, (tid t, t_phase t)) (tasks (demo_after es)) = [("b", Hooked)].
Proof.
  split; [apply plain_ok; repeat constructor|]. split; [vm_compute; reflexivity|]. cbv zeta.
  split; [apply plain_ok; repeat constructor|]. split; vm_compute; reflexivity.
Qed.

(** The second message of an update_job comes late: the job is reported as Finished, though its last execution
    failed and it waits to be tried again. *)
Definition why_1 : list (event Z) := [EvStart; ev_run why_a; EvTick] ++ demo_polls 0 (demo_ok 1).
Definition why_2 : list (event Z) :=
  [EvRetry "a"; EvTick; EvTask 0 (demo_fail 1); EvTask 0 (demo_fail 1); EvTask 0 (demo_fail 1)].
Theorem C95_over_refuted :
  ∃ e, update_second (stored (sw (demo_after why_1)) "a") 7 None = Some e ∧
    Forall plain_event (why_1 ++ why_2) ∧
    let es := why_1 ++ why_2 ++ [EvTask 0 (demo_fail 1); e] in
    status_of (demo_after es) "a" = Some Finished ∧
    map (λ t, (tid t, t_phase t, run_count (ctx (t_job t)))) (tasks (demo_after (why_1 ++ why_2))) = [("a", AfterHook, 2%nat)] ∧
    run_count ∘ ctx <$> list.last (runs_of "a" (demo_after es)) = Some 2%nat ∧
    qlist "q" (sw (demo_after es)) Queued = ["a"].
Proof.
  eexists. split; [by vm_compute|]. split; [repeat constructor|]. cbv zeta.
  split; [by vm_compute|]. split; [by vm_compute|]. split; by vm_compute.
Qed.
Print Assumptions C95_over_refuted.
