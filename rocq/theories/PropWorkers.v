(** Several worker processes on one queue. *)
From Verif Require Import SpecWorkers WorkersFacts SpecMulti Demo.

Section theorems.
  Context {M : Type} `{SM : Serde M} {SO : SerdeOk M}.
  Context (prof : nat → profile).
  Context (sched : nat → string → option (time → option time)).
  Context (name : string).
  Context (clock : nat → nat → time).
  Notation fafter := (fleet_after prof sched name clock).
  Notation ok_fleet := (ok_fleet prof sched name clock).
  Notation qlist := (qlist name).
  Notation stored := (@stored M SM).
  Implicit Types es : list (nat * event M).

  (** C60, for processes whose steps do not overlap in time.  Any number of processes, each with its own
      build and clock, starting, crashing and taking calls in any order: no job has tasks in two
      processes, or two tasks in one.  Missing: overlapping steps, for which it is false (below). *)
  Theorem C60_no_overlap_partial n es :
    ok_fleet (fleet_init n) es → NoDup (map tid (all_tasks (fafter n es))).
  Proof. exact (fleet_no_overlap prof sched name clock n es). Qed.

  (** Under the same condition, the status of a job changes along the life cycle of C16 only, whichever
      process acts. *)
  Theorem C60_status_partial n es i e id :
    ok_fleet (fleet_init n) (es ++ [(i, e)]) →
    f_status_of (fafter n (es ++ [(i, e)])) id = f_status_of (fafter n es) id ∨
    legal (f_status_of (fafter n es) id) (f_status_of (fafter n (es ++ [(i, e)])) id).
  Proof. exact (fleet_status prof sched name clock n es i e id). Qed.

  (** And run_count counts the executions since the submission in all processes together. *)
  Theorem C60_run_count_partial n es1 i m j ec es2 j' :
    let es := es1 ++ (i, EvEnqueue j ec) :: es2 in
    let r := (length (f_runs_of (jid j) (fafter n es)) - length (f_runs_of (jid j) (fafter n es1)))%nat in
    ok_fleet (fleet_init n) es →
    f_members (fafter n es1) !! i = Some m → m_alive m = true → run_count (ctx j) = 0%nat →
    stored (f_world (fafter n es1)) (jid j) = None ∨
      (∃ ex, stored (f_world (fafter n es1)) (jid j) = Some ex ∧ done_status (jstatus (ctx ex)) ∧
             re_run ec = true) →
    Forall (λ ie, ¬ submits (jid j) ie.2) es2 →
    stored (f_world (fafter n es)) (jid j) = Some j' →
    (jstatus (ctx j') ≠ Running → run_count (ctx j') = r) ∧
    (jstatus (ctx j') = Running → run_count (ctx j') = r ∨ S (run_count (ctx j')) = r).
  Proof. exact (fleet_run_count prof sched name clock n es1 i m j ec es2 j'). Qed.

  (** C61, for processes whose steps do not overlap in time: the tasks of all processes together respect
      the largest limit that any of them was given.  Missing as for C60. *)
  Theorem C61_limit_partial n es :
    ok_fleet (fleet_init n) es →
    (length (all_tasks (fafter n es)) <= length (qlist (f_world (fafter n es)) Running) ∧
     length (qlist (f_world (fafter n es)) Running) <= limit_of (map snd es))%nat.
  Proof. exact (fleet_limit_tasks prof sched name clock n es). Qed.
End theorems.
Print Assumptions C60_no_overlap_partial.
Print Assumptions C60_status_partial.
Print Assumptions C60_run_count_partial.
Print Assumptions C61_limit_partial.

(** Two processes; the first submits two jobs and executes one of them, the second executes the other
    and dies on it. *)
Definition pw_after : list (nat * event Z) → fleet Z :=
  fleet_after (λ _, Debug) (λ _, demo_sched) "q" (λ i k, demo_clock (k + 100 * i)) 2.
Definition pw_start : list (nat * event Z) := [(0, EvStart); (1, EvStart)]%nat.
Definition pw_rest : list (nat * event Z) :=
  [(0, EvTick); (0, EvEnqueue (demo_job "b" 2) new_re_run); (1, EvTick);
   (0, EvTask 0 (demo_ok 3)); (1, EvTask 0 (demo_ok 3)); (0, EvTask 0 (demo_ok 3)); (1, EvTask 0 (demo_ok 3));
   (1, EvTick); (0, EvTick)]%nat.
Definition pw_es : list (nat * event Z) :=
  pw_start ++ (0%nat, EvEnqueue (demo_job "a" 1) new_re_run) :: pw_rest.
Lemma pw_ok es : Forall (λ ie, plain_event ie.2) es →
  ok_fleet (λ _, Debug) (λ _, demo_sched) "q" (λ i k, demo_clock (k + 100 * i)) (fleet_init 2) es.
Proof.
  intros H. generalize (fleet_init (M := Z) 2) as f. induction H as [|[i e] es He _ IH]; intros f; cbn; [done|].
  split; [|apply IH]. destruct e; cbn in *; auto.
Qed.
Example C60_case :
  ok_fleet (λ _, Debug) (λ _, demo_sched) "q" (λ i k, demo_clock (k + 100 * i)) (fleet_init 2) pw_es ∧
  map (map tid) (map m_tasks (f_members (pw_after pw_es))) = [["a"]; ["b"]] ∧
  map jid (f_runs (pw_after pw_es)) = ["a"; "b"] ∧
  limit_of (map snd pw_es) = 20%nat ∧
  map (λ s, qlist "q" (f_world (pw_after pw_es)) s) [Queued; Running] = [[]; ["b"; "a"]] ∧
  f_status_of (pw_after pw_es) "a" = Some Running.
Proof.
  split; [apply pw_ok; repeat constructor|].
  split; [by vm_compute|]. split; [by vm_compute|]. split; [by vm_compute|]. split; by vm_compute.
Qed.
Definition pw_end : list (nat * event Z) :=
  pw_es ++ [(0, EvTask 0 (demo_ok 3)); (1, EvTask 0 (demo_ok 4)); (0, EvTask 0 (demo_ok 3)); (1, EvCrash)]%nat.
Example C60_run_count_case :
  stored (M := Z) (f_world (pw_after pw_start)) "a" = None ∧
  (m_alive <$> (f_members (pw_after pw_start) !! 0%nat)) = Some true ∧
  (run_count ∘ ctx <$> stored (M := Z) (f_world (pw_after pw_end)) "a") = Some 1%nat ∧
  f_status_of (pw_after pw_end) "a" = Some Finished ∧
  f_status_of (pw_after pw_end) "b" = Some Running.
Proof.
  split; [by vm_compute|]. split; [by vm_compute|]. split; [by vm_compute|]. split; by vm_compute.
Qed.

(** C60 is false if the steps overlap.  Two processes on one Redis, each to execute one job at a time;
    the first submits "a" and "b", and both tick, command by command in turn.  Both execute "a" to the
    end.  "b" is moved to the processing list, as moves go by position, but no process executes it; and
    as it fills the limit, nothing in this queue will be started any more. *)
Definition one_at_a_time : wq_config := WqConfig (process_tick_duration wq_config_default) 1.
Definition worker (es : list (event Z)) : queue_spec := QSpec Z demo_serde "q" demo_clock es (λ _, True).
Definition two_workers : list queue_spec :=
  [worker ([EvStart; EvConfig one_at_a_time; EvEnqueue (demo_job "a" 1) new_re_run;
            EvEnqueue (demo_job "b" 1) new_re_run; EvTick] ++ demo_polls 0 (demo_ok 2) ++ [EvTick]);
   worker ([EvStart; EvConfig one_at_a_time; EvTick] ++ demo_polls 0 (demo_ok 2) ++ [EvTick])].
Definition overlapping (n : nat) : list nat := (repeat 1 3 ++ repeat 0 14 ++ concat (repeat [0; 1] n))%nat.
Definition overlapped (n : nat) : list thread * keyspace :=
  joint_redis (overlapping n) (thread_of Debug demo_sched <$> two_workers) ∅.
(** The jobs for which a process that is through started user code. *)
Definition ran (t : thread) (js : list (job Z)) : Prop :=
  ∃ s rs c k l, t = Thread (sys unit Z * list (response Z)) (Ret (s, rs)) c k l ∧ runs s = js.
Theorem C60_executed_twice_refuted :
  ∃ t0 t1 j0 j1,
    (overlapped 60).1 = [t0; t1] ∧ ran t0 [j0] ∧ ran t1 [j1] ∧ jid j0 = "a" ∧ jid j1 = "a".
Proof.
  eexists _, _, _, _. split; [by vm_compute|]. split; [|split].
  - eexists _, _, _, _, _. split; [reflexivity|]. reflexivity.
  - eexists _, _, _, _, _. split; [reflexivity|]. reflexivity.
  - split; reflexivity.
Qed.
Theorem C60_lost_refuted :
  let r := overlapped 60 in
  map th_log r.1 =
    [[ChangeStatus "a" Queued; ChangeStatus "b" Queued; ChangeStatus "a" Running; RunHook "a" true;
      RunHook "a" true; ChangeStatus "a" Finished];
     [ChangeStatus "a" Running; RunHook "a" true; RunHook "a" true; ChangeStatus "a" Finished]] ∧
  r.2 !! format_queue_name "q" Queued = None ∧
  r.2 !! format_queue_name "q" Running = Some (RList ["b"]) ∧
  r.2 !! format_queue_name "q" Finished = Some (RList ["a"; "a"]).
Proof. cbv zeta. split; [by vm_compute|]. split; [by vm_compute|]. split; by vm_compute. Qed.
Print Assumptions C60_executed_twice_refuted.
Print Assumptions C60_lost_refuted.

(** C61 is false if the steps overlap: in the same run the processing list has two ids for a while,
    though the limit is one in both processes. *)
Theorem C61_refuted :
  (overlapped 12).2 !! format_queue_name "q" Running = Some (RList ["b"; "a"]).
Proof. by vm_compute. Qed.
Print Assumptions C61_refuted.
