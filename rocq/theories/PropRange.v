(** Every number stays in the range of its Rust type. *)
From Verif Require Import Spec SpecRange RangeFacts Demo.

Section theorems.
  Context {M : Type} `{SM : Serde M}.
  Context (prof : profile).
  Context (sched : string → option (time → option time)).
  Context (name : string).
  Context (clock : nat → time).
  Notation fgo faults := (sys_run prof sched name (faulty_h clock faults) (sys_init (FWorld world_empty 0))).
  Notation stored := (@stored M SM).

  (** C100.  If what comes from outside is in range (the clock, the times of cron schedules, submitted jobs, the
      answers of an own retry_at), then in every history, with failing calls and crashes inside steps,
      every stored value is what the serialization of a job in range gives, and all jobs that are read, held by tasks,
      passed to user code or returned to callers are in range; and no job counts more executions than it came with
      and events there were. *)
  Theorem C100_ranges faults n (es : list (event M)) :
    (∀ k, time_ok (clock k)) → (∀ e f t t', sched e = Some f → f t = Some t' → time_ok t') →
    events_ok n es →
    let s := fgo faults es in
    let m := (n + length es)%nat in
    (∀ id v, mem_sget (st (fw (sw s))) STORAGE_HASH id = Some v → ∃ j : job M, v = enc_job j ∧ job_ok m j) ∧
    (∀ id j, stored (fw (sw s)) id = Some j → job_ok m j) ∧
    (∀ t, t ∈ tasks s → job_ok m (t_orig t) ∧ job_ok m (t_job t)) ∧
    (∀ j, j ∈ runs s → job_ok m j) ∧
    (∀ j, RJob (Some j) ∈ responses prof sched name (faulty_h clock faults) (sys_init (FWorld world_empty 0)) es → job_ok m j).
  Proof. exact (ranges prof sched name clock faults n es). Qed.
  (** On Redis, for what can be seen of it. *)
  Theorem C100_redis n (es : list (event M)) :
    (∀ k, time_ok (clock k)) → (∀ e f t t', sched e = Some f → f t = Some t' → time_ok t') →
    events_ok n es →
    let s := sys_run prof sched name (redis_h clock) (sys_init rworld_empty) es in
    let m := (n + length es)%nat in
    (∀ t, t ∈ tasks s → job_ok m (t_orig t) ∧ job_ok m (t_job t)) ∧
    (∀ j, j ∈ runs s → job_ok m j) ∧
    (∀ j, RJob (Some j) ∈ responses prof sched name (redis_h clock) (sys_init rworld_empty) es → job_ok m j).
  Proof. exact (ranges_redis prof sched name clock n es). Qed.
End theorems.
Print Assumptions C100_ranges.
Print Assumptions C100_redis.

(** A cron job whose count is as large as it can be, with a retry policy, in a release build: the next count wraps
    to the smallest one. *)
Definition bounded_clock (k : nat) : time := Z.of_nat (Nat.min k 1000) * 1000000.
Definition bounded_sched (e : string) : option (time → option time) := Some (λ t, if t <? 5000000 then Some 5000000 else None).
Definition counted_job : job Z :=
  set_ctx (demo_job "a" 1) (set_jretry (set_jtype (ctx (demo_job "a" 1))
    (Cron "*" 0 2147483647 (CronContext 0 None (Some 9000000)))) (Some (Retry 2147483647 (Some 3) (Interval 1000)))).
Definition counted_events : list (event Z) :=
  [EvStart; ev_run counted_job; EvTick; EvTask 0 (demo_ok 1); EvTask 0 (demo_ok 1); EvTask 0 (demo_ok 1);
   EvTask 0 (demo_ok 1); EvGet "a"].
Example C100_case :
  (∀ k, time_ok (bounded_clock k)) ∧
  (∀ e f t t', bounded_sched e = Some f → f t = Some t' → time_ok t') ∧
  events_ok 0 counted_events ∧
  match list.last (responses Release bounded_sched "q" (faulty_h bounded_clock (λ _, FOk)) (sys_init (FWorld world_empty 0))
    counted_events) with
  | Some (RJob (Some j)) => (jtype (ctx j), run_count (ctx j)) = (Cron "*" 5000000 (-2147483648) (CronContext 0 None (Some 9000000)), 1%nat)
  | _ => False
  end.
Proof.
  split; [|split; [|split]].
  - intros k. unfold time_ok, bounded_clock, dt_min, dt_max. lia.
  - intros e f t t' [= <-]. destruct (_ <? _); [|done]. intros [= <-]. unfold time_ok, dt_min, dt_max. lia.
  - vm_compute. repeat split; try discriminate; repeat constructor.
  - by vm_compute.
Qed.
