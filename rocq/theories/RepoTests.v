(** The repository's own unit tests and examples, run on the model.  These are tests, not proofs: they show that
    the model answers as the code is said to by its authors. *)
From Verif Require Import Spec Builder Registry Macro Demo.

(** ** aj_core/src/backend/mem.rs:139-293, redis.rs:174-329: the same programs on both backends. *)
Section backend.
  Context {W : Type} (h : handler W) (w0 : W).
  Notation runs_to p v := ((run h p w0).2 = Done v).
  Definition ask {A : Set} (e : eff A) : prog A := do e.

  Definition test_queue_push :=
    let! r1 := ask (QPush "test_queue" "item1") in
    let! i1 := ask (QGet "test_queue" 1 Front) in
    let! _ := ask (QPush "test_queue" "item2") in
    let! i2 := ask (QGet "test_queue" 2 Front) in Ret (r1, i1, i2).
  Definition test_queue_move :=
    let! _ := ask (QPush "from_queue" "item1") in
    let! _ := ask (QPush "from_queue" "item2") in
    let! r := ask (QMove "from_queue" "to_queue" 1 Front Back) in
    let! i := ask (QGet "to_queue" 1 Front) in Ret (r, i).
  Definition test_queue_remove :=
    let! _ := ask (QPush "test_queue" "item1") in
    let! _ := ask (QPush "test_queue" "item2") in
    let! r := ask (QRemove "test_queue" "item1") in
    let! i := ask (QGet "test_queue" 10 Front) in Ret (r, i).
  Definition test_queue_get :=
    let! _ := ask (QPush "test_queue" "item1") in
    let! _ := ask (QPush "test_queue" "item2") in
    let! _ := ask (QPush "test_queue" "item3") in
    let! i1 := ask (QGet "test_queue" 2 Front) in
    let! i2 := ask (QGet "test_queue" 2 Back) in
    let! i3 := ask (QGet "test_queue" 4 Back) in Ret (i1, i2, i3).
  Definition test_queue_count :=
    let! c1 := ask (QCount "test_queue") in
    let! _ := ask (QPush "test_queue" "item1") in
    let! _ := ask (QPush "test_queue" "item2") in
    let! c2 := ask (QCount "test_queue") in Ret (c1, c2).
  Definition test_storage_upsert_and_get :=
    let! r := ask (SUpsert "test_hash" "key1" (Some (JStr "value1"))) in
    let! v := ask (SGet "test_hash" "key1") in Ret (r, v).
  Definition test_storage_get_non_existent_key := ask (SGet "test_hash" "non_existent_key").

  Definition backend_tests : Prop :=
    runs_to test_queue_push (Ok (), Ok ["item1"], Ok ["item2"; "item1"]) ∧
    runs_to test_queue_move (Ok ["item2"], Ok ["item2"]) ∧
    runs_to test_queue_remove (Ok (), Ok ["item2"]) ∧
    runs_to test_queue_get (Ok ["item3"; "item2"], Ok ["item1"; "item2"], Ok ["item1"; "item2"; "item3"]) ∧
    runs_to test_queue_count (Ok 0%nat, Ok 2%nat) ∧
    runs_to test_storage_upsert_and_get (Ok (), Ok (Some (Some (JStr "value1")))) ∧
    runs_to test_storage_get_non_existent_key (Ok None).
End backend.
Example mem_tests : backend_tests (mem_h demo_clock) world_empty.
Proof. by vm_compute. Qed.
Example redis_tests : backend_tests (redis_h demo_clock) rworld_empty.
Proof. by vm_compute. Qed.

(** ** aj_core/src/job/retry.rs:81-159; the time is 2024-01-01T00:00:00Z. *)
Definition mock_now : time := 1704067200 * 1000000000.
Definition second : duration := 1000000000.
Definition ms : duration := 1000000.
Example test_default_retry : retry_default = Retry 0 (Some 3) (Interval (100 * ms)).
Proof. by vm_compute. Qed.
Fixpoint backoffs (n : nat) (r : retry) : list (bool * time) * bool :=
  match n with
  | O => ([], should_retry r)
  | S n' =>
      match retry_retry_at Debug r mock_now with
      | Some (r', t) => let '(l, b) := backoffs n' r' in ((should_retry r, t) :: l, b)
      | None => ([], true)
      end
  end.
Example test_exponential_backoff_retry :
  backoffs 3 (new_exponential_backoff (Some 3) (5 * second)) =
    (map (λ k, (true, mock_now + 5 * second * 2 ^ k)) [1; 2; 3], false).
Proof. by vm_compute. Qed.
Example test_should_retry_with_max_retries :
  should_retry (Retry 2 (Some 3) (Interval (100 * ms))) = true ∧
  should_retry (Retry 3 (Some 3) (Interval (100 * ms))) = false.
Proof. by vm_compute. Qed.
Example test_should_retry_with_no_max_retries : should_retry (Retry 2 None (Interval (100 * ms))) = true.
Proof. by vm_compute. Qed.
Example test_retry_at_increments_retried_times :
  retry_retry_at Debug (Retry 0 (Some 3) (Interval (100 * ms))) mock_now =
    Some (Retry 1 (Some 3) (Interval (100 * ms)), mock_now + 100 * ms).
Proof. by vm_compute. Qed.

(** ** aj_core/src/job/mod.rs:312-383 *)
Definition repo_clock (k : nat) : time := mock_now + Z.of_nat k * ms.
Definition repo_sched (e : string) : option (time → option time) :=
  (* "0 1 1 1 * * *" is the first of each month, 01:01:00; from mock_now on, the same day *)
  if String.eqb e "0 1 1 1 * * *" then Some (λ t, Some (mock_now + 3660 * second))
  else if String.eqb e "* * * * * * *" then Some (λ t, Some ((t / second + 1) * second))
  else None.
Definition built (bs : list bcall) : option (job Z) :=
  match (run (mem_h repo_clock) (build repo_sched "id" 1 bs) world_empty).2 with Done j => Some j | _ => None end.
Example test_job :
  match built [] with
  | Some j => is_ready j (repo_clock 1) = true ∧ jstatus (ctx j) = Queued ∧ jtype (ctx j) = Normal ∧ run_count (ctx j) = 0%nat
  | None => False
  end.
Proof. by vm_compute. Qed.
(** `execute` raises run_count to 1: the second poll of a task. *)
Definition repo_run : list (event Z) → sys world Z := sys_run Debug repo_sched "q" (mem_h repo_clock) (sys_init world_empty).
Example test_job_execute :
  match built [] with
  | Some j => map (λ j, (data j, run_count (ctx j)))
      (runs (repo_run ([EvStart; ev_run j; EvTick] ++ demo_polls 0 (demo_ok 1)))) = [(1, 1%nat)]
  | None => False
  end.
Proof. by vm_compute. Qed.
Example test_schedule_job :
  match built [BScheduleAt (repo_clock 0 + second)] with
  | Some j => is_ready j (repo_clock 1) = false ∧ jtype (ctx j) = ScheduledAt (repo_clock 0 + second)
  | None => False
  end.
Proof. by vm_compute. Qed.
Example test_cron_job :
  match built [BCron "0 1 1 1 * * *"] with
  | Some j => is_ready j (repo_clock 1) = false ∧
      (run (mem_h repo_clock) (new_cron repo_sched "0 1 1 1 * * *" cron_context_default) world_empty).2 = Done (Ok (jtype (ctx j)))
  | None => False
  end.
Proof. by vm_compute. Qed.
(** Three failed executions, each is to be retried. *)
Fixpoint retries (n : nat) (r : retry) : list bool :=
  match n with
  | O => []
  | S n' =>
      match (run (mem_h repo_clock) (call_retry_at Debug r (DefaultRetryAt true)) world_empty).2 with
      | Done (r', o) => bool_decide (o ≠ None) :: retries n' r'
      | _ => []
      end
  end.
Example test_retry : retries 3 (new_interval_retry (Some 3) second) = [true; true; true].
Proof. by vm_compute. Qed.

(** ** aj_core/src/util/mod.rs:59-66 *)
Example test_get_ms_as_datetime_specific_value :
  get_ms_as_datetime Debug 1600000000000 = Some (1600000000 * second).
Proof. by vm_compute. Qed.

(** ** aj_core/src/aj.rs:318-358: one thread after the other. *)
Definition start_steps (i : nat) : list boot_event := BStart :: replicate 7 (BStep i).
Definition get_steps (i : nat) : list boot_event := BGet :: replicate 2 (BStep i).
Example test_start_aj : threads (boot_run boot_init (start_steps 0 ++ get_steps 1)) = [SReturned 0; GReturned (Some 0%nat)].
Proof. by vm_compute. Qed.
Example test_start_multiple_times : threads (boot_run boot_init (start_steps 0 ++ start_steps 1)) = [SReturned 0; SReturned 0].
Proof. by vm_compute. Qed.

(** ** The programs in aj/examples, on a clock that goes on 10 ms with every reading. *)
Definition slow_clock (k : nat) : time := mock_now + Z.of_nat k * 10 * ms.
(** A queue that ticks [n] times and executes what it has started, with result [u]. *)
Definition work (n : nat) (u : user_result Z) : list (event Z) :=
  mjoin (replicate n (EvTick :: demo_polls 0 u)).
Definition ex_run : list (event Z) → sys world Z := sys_run Debug repo_sched "q" (mem_h slow_clock) (sys_init world_empty).
(** What was executed: payload, number of the execution, whole seconds since the start. *)
Definition executed (s : sys world Z) : list (Z * nat * option Z) :=
  map (λ j, (data j, run_count (ctx j), option_map (λ t, t / 1000 - 1704067200) (run_at (ctx j)))) (runs s).
Definition ex_job (id : string) (n : Z) (bs : list bcall) : list (event Z) :=
  match (run (mem_h slow_clock) (build repo_sched id n bs) world_empty).2 with Done j => [ev_run j] | _ => [] end.

(** simple_job.rs: two jobs are executed. *)
Example simple_job :
  executed (ex_run ([EvStart] ++ ex_job "1" 1 [] ++ ex_job "2" 2 [] ++ work 1 (demo_ok 1) ++ work 3 (demo_ok 2))) =
    [(1, 1%nat, Some 0); (2, 1%nat, Some 0)].
Proof. by vm_compute. Qed.
(** cancel_job.rs: of two jobs with a delay of one second the first one is cancelled. *)
Example cancel_job_example :
  executed (ex_run ([EvStart] ++ ex_job "1" 1 [BDelay second] ++ [EvCancel "1"] ++ ex_job "2" 2 [BDelay second]
    ++ work 150 (demo_ok 2))) =
    [(2, 1%nat, Some 1)].
Proof. by vm_compute. Qed.
(** update_job.rs: a job with a delay of one second gets another payload. *)
Example update_job_example :
  executed (sys_run Debug repo_sched "q" (mem_h slow_clock)
    (update_job Debug repo_sched "q" (mem_h slow_clock) (ex_run ([EvStart] ++ ex_job "1" 1 [BDelay second])) "1" 2 None).1
    (work 150 (demo_ok 2))) =
    [(2, 1%nat, Some 1)].
Proof. by vm_compute. Qed.
(** cron_job.rs: once every second. *)
Example cron_job_example :
  executed (ex_run ([EvStart] ++ ex_job "1" 1 [BCron "* * * * * * *"] ++ work 500 (demo_ok 1))) =
    [(1, 1%nat, Some 1); (1, 2%nat, Some 2); (1, 3%nat, Some 3); (1, 4%nat, Some 4); (1, 5%nat, Some 5)].
Proof. by vm_compute. Qed.
(** schedule_job.rs: after one second, after two seconds. *)
Example schedule_job_example :
  executed (ex_run ([EvStart] ++ ex_job "1" 1 [BDelay second] ++ ex_job "2" 2 [BScheduleAt (slow_clock 0 + 2 * second)]
    ++ work 300 (demo_ok 1))) =
    [(1, 1%nat, Some 1); (2, 1%nat, Some 2)].
Proof. by vm_compute. Qed.
(** retry_job.rs: "Retry 3 times -> Maximum do the job 4 times." *)
Example retry_job_example :
  executed (ex_run ([EvStart] ++ ex_job "1" 1 [BRetry (new_interval_retry (Some 3) second)] ++ work 500 (demo_fail 1))) =
    [(1, 1%nat, Some 0); (1, 2%nat, Some 1); (1, 3%nat, Some 2); (1, 4%nat, Some 3)].
Proof. by vm_compute. Qed.
