(** C93.  The work queue is a scheduler. *)
From Verif Require Import Spec Demo SpecSched HistFacts RedisFacts SchedFacts SchedDet SlotFacts.
Open Scope Z_scope.

Section sched.
  Context {M : Type} `{SM : Serde M} {SO : SerdeOk M}.
  Context (prof : profile).
  Context (sched : string → option (time → option time)).
  Context (name : string).
  Context (clock : nat → time).

  (** Every step of the queue, from a state that an orderly history reaches, is a step of the scheduler of
      SpecSched.v with the same answer. *)
  Theorem C93_step es e :
    let s := after prof sched name clock es in
    let (s', r) := sys_step prof sched name (mem_h clock) s e in
    ok_hist prof sched name clock initial (es ++ [e]) →
    sched_step sched (read_between clock s s') (show name s) e r (show name s').
  Proof. exact (sched_refines prof sched name clock es e). Qed.

  (** Every orderly history is a run of the scheduler from the empty board, with the same answers. *)
  Theorem C93_history es :
    ok_hist prof sched name clock initial es →
    ∃ b0 k, fresh b0 ∧
      sched_run sched clock 0 b0 es (responses prof sched name (mem_h clock) (sys_init world_empty) es)
        k (show name (after prof sched name clock es)).
  Proof. exact (sched_history prof sched name clock es). Qed.

  (** ... also on Redis: the answers, the calls of user code and both lists are those of the scheduler. *)
  Theorem C93_on_redis es :
    ok_hist prof sched name clock initial es →
    ∃ b0 k b, fresh b0 ∧
      let s := sys_run prof sched name (redis_h clock) (sys_init rworld_empty) es in
      sched_run sched clock 0 b0 es (responses prof sched name (redis_h clock) (sys_init rworld_empty) es) k b ∧
      begun b = runs s ∧ up b = alive s ∧
      Backend.rlist (keys (sw s)) (format_queue_name name Queued) = Some (rev (waiting b)) ∧
      Backend.rlist (keys (sw s)) (format_queue_name name Running) = Some (slots b).
  Proof. exact (sched_redis prof sched name clock es). Qed.

  (** The scheduler leaves no choice but which reading of the clock is used where: if the clock stands still, the
      answer and the board after a step are determined, up to the rounding of stored times. *)
  Theorem C93_determined now (b b1 b2 : board M) e r1 r2 :
    counts_fit b e →
    sched_step sched (λ t, t = now) b e r1 b1 → sched_step sched (λ t, t = now) b e r2 b2 →
    r1 = r2 ∧ same_board b1 b2.
  Proof. exact (step_det sched now b b1 b2 e r1 r2). Qed.

  (** The ids that the queue shows as being processed: those of the executions under way, the newest first, and
      behind them what processes that died have left. *)
  Theorem C93_processing es n :
    ok_hist prof sched name clock initial es →
    (∀ es1 es2, es = es1 ++ es2 →
      Z.of_nat (length (qlist name (sw (after prof sched name clock es1)) Queued)) < 2 ^ 31) →
    let s := after prof sched name clock es in
    ∃ old, (run (mem_h clock) (get_processing_job_ids name n) (sw s)).2 =
        Done (Ok (take n (rev (map (λ t, jid (t_job t)) (tasks s)) ++ old))) ∧
      (nobody_died prof sched name clock es → old = []).
  Proof. exact (processing prof sched name clock es n). Qed.
End sched.
Print Assumptions C93_step.
Print Assumptions C93_history.
Print Assumptions C93_on_redis.
Print Assumptions C93_determined.
Print Assumptions C93_processing.

(** One slot; "b" waits for its time, "a" is taken, "c" finds no slot and, having been looked at, goes to the end. *)
Definition sched_demo : list (event Z) :=
  [EvStart; EvConfig (WqConfig 1 1); ev_run (job_schedule_at (demo_job "b" 1) 1000000000000);
   ev_run (demo_job "a" 2); ev_run (demo_job "c" 3); EvTick; EvTask 0 (demo_ok 0); EvTask 0 (demo_ok 0); EvGet "z"].
Example C93_example :
  ok_hist Debug demo_sched "q" demo_clock initial sched_demo ∧
  let b := show "q" (demo_after sched_demo) in
  (up b, limit b, waiting b, slots b) = (true, 1%nat, ["b"; "c"], ["a"]) ∧
  map (λ x, (jid x.1, run_count (ctx x.1), x.2)) (execs b) = [("a", 1%nat, Working)] ∧
  map jid (begun b) = ["a"].
Proof.
  split; [apply plain_ok; repeat constructor|]. cbv zeta.
  split; [vm_compute; reflexivity|]. split; vm_compute; reflexivity.
Qed.
(** A tick on a board where "a" waits. *)
Definition one_waits : board Z :=
  Board true 20 (λ id, if String.eqb id "a" then Some (demo_job "a" 1) else None) ["a"] [] [] [].
Definition one_taken : board Z :=
  let j := stamp_running (demo_job "a" 1) 5 in
  Board true 20 (λ id, if String.eqb id "a" then Some j else None) [] ["a"] [(j, Taken)] [].
Example C93_determined_example :
  counts_fit one_waits EvTick ∧ sched_step demo_sched (λ t, t = 5) one_waits EvTick RNone one_taken.
Proof.
  split; [done|]. split; [done|]. right. exists [stamp_running (demo_job "a" 1) 5], []. split.
  { apply (rounds_more _ _ _ _ _ [stamp_running (demo_job "a" 1) 5] [] []); [cbn; lia|cbn; lia| |apply rounds_end; by left].
    apply (look_take _ _ _ "a" [] (demo_job "a" 1) 5 5); try done. constructor. }
  split; [by intros j ->%elem_of_list_singleton|]. split.
  { intros k Hk. cbn. destruct (String.eqb_spec k "a") as [->|]; [|done]. exfalso. apply Hk. by left. }
  repeat split; done.
Qed.
(** "a" was taken by a process that died; "b" and "c" are being executed. *)
Definition processing_demo : list (event Z) :=
  [EvStart; ev_run (demo_job "a" 1); EvTick; EvCrash; EvStart; ev_run (demo_job "b" 2); ev_run (demo_job "c" 3); EvTick].
Example C93_processing_example :
  ok_hist Debug demo_sched "q" demo_clock initial processing_demo ∧
  let s := demo_after processing_demo in
  (run (mem_h demo_clock) (get_processing_job_ids "q" 2) (sw s)).2 = Done (Ok ["c"; "b"]) ∧
  (run (mem_h demo_clock) (get_processing_job_ids "q" 9) (sw s)).2 = Done (Ok ["c"; "b"; "a"]) ∧
  map (λ t, jid (t_job t)) (tasks s) = ["b"; "c"].
Proof.
  split; [apply plain_ok; repeat constructor|]. cbv zeta.
  split; [vm_compute; reflexivity|]. split; vm_compute; reflexivity.
Qed.
