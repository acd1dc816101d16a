(** Data types of aj_core/src/job/*.rs and the plain (effect free) functions on them. *)
From stdpp Require Export base strings list gmap numbers option.
From Coq Require Export ZArith Lia.
Export ListNotations.
Global Open Scope Z_scope.
Global Open Scope list_scope.

(** DateTime<Utc>, as nanoseconds since the epoch.  Simplification: an unbounded integer; the
    range of chrono's DateTime only matters where a time is computed by addition ([dt_add]). *)
Definition time := Z.
(** chrono::Duration (TimeDelta) in nanoseconds, unbounded. *)
Definition duration := Z.

(** Build profile: overflow of i32 arithmetic panics (debug) or wraps (release). *)
Inductive profile := Debug | Release.

Definition i32_min : Z := -2147483648.
Definition i32_max : Z := 2147483647.
Definition in_i32 (z : Z) : bool := (i32_min <=? z) && (z <=? i32_max).
(** Two's complement truncation to 32 bits: Rust's `as i32`. *)
Definition wrap32 (z : Z) : Z := (z + 2147483648) mod 4294967296 - 2147483648.
(** The result of an i32 operation whose exact value is [z]; [None] is a panic. *)
Definition i32_norm (p : profile) (z : Z) : option Z :=
  if in_i32 z then Some z else match p with Debug => None | Release => Some (wrap32 z) end.

(** chrono 0.4.38 DateTime<Utc>::MIN_UTC / MAX_UTC in nanoseconds: `DateTime + TimeDelta` panics
    outside this range.  (chrono is a dependency, not in /repo; constants from its documentation.) *)
Definition dt_min : Z := -8334601228800 * 1000000000.
Definition dt_max : Z := 8210266876799 * 1000000000 + 999999999.
Definition dt_add (t : time) (d : duration) : option time :=
  let s := t + d in if (dt_min <=? s) && (s <=? dt_max) then Some s else None.

(** aj_core/src/job/job_context.rs:54-61 (JobStatus); the default, Queued, in 63-67. *)
Inductive status := Queued | Running | Finished | Failed | Canceled.
Global Instance status_eq_dec : EqDecision status.
Proof. solve_decision. Defined.

(** `{:?}` of JobStatus, derived Debug: job_context.rs:54. *)
Definition status_name (s : status) : string :=
  match s with
  | Queued => "Queued" | Running => "Running" | Finished => "Finished"
  | Failed => "Failed" | Canceled => "Canceled"
  end.

(** aj_core/src/job/job_context.rs:12-17 (CronContext). *)
Record cron_context := CronContext {
  tick_number : Z;
  max_repeat : option Z;
  end_at : option time;
}.
(** derive(Default): job_context.rs:11. *)
Definition cron_context_default : cron_context := CronContext 0 None None.

(** aj_core/src/job/job_context.rs:21-33 (JobType); the default, Normal, in 35-39; new_schedule is the
    constructor ScheduledAt, 41-44. *)
Inductive job_type :=
  | Normal
  | ScheduledAt (at_ : time)
  | Cron (expression : string) (next_slot : time) (total_repeat : Z) (cc : cron_context).

(** aj_core/src/job/retry.rs:9-15 (RetryStrategy). *)
Inductive strategy :=
  | Interval (d : duration)
  | ExponentialBackoff (d : duration).

(** aj_core/src/job/retry.rs:18-23 (Retry). *)
Record retry := Retry {
  retried_times : Z;
  max_retries : option Z;
  strat : strategy;
}.

(** aj_core/src/job/job_context.rs:70-82 (JobContext). *)
Record context := Context_ {
  job_id : string;
  jtype : job_type;
  jstatus : status;
  jretry : option retry;
  created_at : Z;
  enqueue_at : option Z;
  run_at : option Z;
  complete_at : option Z;
  cancel_at : option Z;
  run_count : nat;      (* usize; overflow of 2^64 executions is not modelled *)
}.

(** aj_core/src/job/job_context.rs:85-98 (JobContext::new); [now_ms] is get_now_as_ms(). *)
Definition context_new (id : string) (now_ms : Z) : context :=
  Context_ id Normal Queued None now_ms None None None None 0.

(** aj_core/src/job/mod.rs:22-25 (Job<M>). *)
Record job (M : Type) := Job { ctx : context; data : M }.
Arguments Job {M} _ _.
Arguments ctx {M} _.
Arguments data {M} _.

(** Field updates on the context (`self.context.x = ...` in job/mod.rs). *)
Definition set_jtype (c : context) (t : job_type) : context :=
  Context_ (job_id c) t (jstatus c) (jretry c) (created_at c) (enqueue_at c) (run_at c)
           (complete_at c) (cancel_at c) (run_count c).
Definition set_jstatus (c : context) (s : status) : context :=
  Context_ (job_id c) (jtype c) s (jretry c) (created_at c) (enqueue_at c) (run_at c)
           (complete_at c) (cancel_at c) (run_count c).
Definition set_jretry (c : context) (r : option retry) : context :=
  Context_ (job_id c) (jtype c) (jstatus c) r (created_at c) (enqueue_at c) (run_at c)
           (complete_at c) (cancel_at c) (run_count c).
Definition set_enqueue_at (c : context) (t : Z) : context :=
  Context_ (job_id c) (jtype c) (jstatus c) (jretry c) (created_at c) (Some t) (run_at c)
           (complete_at c) (cancel_at c) (run_count c).
Definition set_run_at (c : context) (t : Z) : context :=
  Context_ (job_id c) (jtype c) (jstatus c) (jretry c) (created_at c) (enqueue_at c) (Some t)
           (complete_at c) (cancel_at c) (run_count c).
Definition set_complete_at (c : context) (t : Z) : context :=
  Context_ (job_id c) (jtype c) (jstatus c) (jretry c) (created_at c) (enqueue_at c) (run_at c)
           (Some t) (cancel_at c) (run_count c).
Definition set_cancel_at (c : context) (t : Z) : context :=
  Context_ (job_id c) (jtype c) (jstatus c) (jretry c) (created_at c) (enqueue_at c) (run_at c)
           (complete_at c) (Some t) (run_count c).
Definition set_run_count (c : context) (n : nat) : context :=
  Context_ (job_id c) (jtype c) (jstatus c) (jretry c) (created_at c) (enqueue_at c) (run_at c)
           (complete_at c) (cancel_at c) n.
Definition set_job_id (c : context) (id : string) : context :=
  Context_ id (jtype c) (jstatus c) (jretry c) (created_at c) (enqueue_at c) (run_at c)
           (complete_at c) (cancel_at c) (run_count c).
Definition set_ctx {M} (j : job M) (c : context) : job M := Job c (data j).
Definition set_data {M} (j : job M) (d : M) : job M := Job (ctx j) d.

(** aj_core/src/job/mod.rs:60-62 (Job::id). *)
Definition jid {M} (j : job M) : string := job_id (ctx j).

(** aj_core/src/job/mod.rs:51-57 (Job::new); the uuid is an argument. *)
Definition job_new {M} (uuid : string) (now_ms : Z) (d : M) : job M :=
  Job (context_new uuid now_ms) d.

(** aj_core/src/job/mod.rs:80-95,117-124 builders: set_id, set_context, set_job_type, schedule_at,
    set_retry. *)
Definition job_set_id {M} (j : job M) (id : string) : job M := set_ctx j (set_job_id (ctx j) id).
Definition job_set_type {M} (j : job M) (t : job_type) : job M := set_ctx j (set_jtype (ctx j) t).
Definition job_schedule_at {M} (j : job M) (t : time) : job M := job_set_type j (ScheduledAt t).
Definition job_set_retry {M} (j : job M) (r : retry) : job M :=
  set_ctx j (set_jretry (ctx j) (Some r)).
(** aj_core/src/job/mod.rs:101-104 (delay): `get_now() + after` panics outside the DateTime range. *)
Definition job_delay {M} (j : job M) (now : time) (d : duration) : option (job M) :=
  job_schedule_at j <$> dt_add now d.

(** aj_core/src/job/mod.rs:217-233. *)
Definition is_queued {M} (j : job M) : bool := bool_decide (jstatus (ctx j) = Queued).
Definition is_running {M} (j : job M) : bool := bool_decide (jstatus (ctx j) = Running).
Definition is_cancelled {M} (j : job M) : bool := bool_decide (jstatus (ctx j) = Canceled).
Definition is_done {M} (j : job M) : bool :=
  bool_decide (jstatus (ctx j) = Finished) || bool_decide (jstatus (ctx j) = Canceled)
  || bool_decide (jstatus (ctx j) = Failed).

(** aj_core/src/job/mod.rs:148-173 (is_ready), with the clock reading [now] as argument. *)
Definition is_ready {M} (j : job M) (now : time) : bool :=
  match jtype (ctx j) with
  | ScheduledAt at_ => at_ <? now
  | Cron _ next_slot total_repeat cc =>
      if now <? next_slot then false
      else if match max_repeat cc with Some m => m <? total_repeat | None => false end then false
      else if match end_at cc with Some e => e <? now | None => false end then false
      else true
  | Normal => true
  end.

(** aj_core/src/job/retry.rs:31-47 constructors. *)
Definition new_interval_retry (m : option Z) (d : duration) : retry := Retry 0 m (Interval d).
Definition new_exponential_backoff (m : option Z) (d : duration) : retry :=
  Retry 0 m (ExponentialBackoff d).
(** retry.rs:25-29 (Default): 3 retries, 100 ms. *)
Definition retry_default : retry := new_interval_retry (Some 3) (100 * 1000000).

(** aj_core/src/job/retry.rs:49-55 (should_retry). *)
Definition should_retry (r : retry) : bool :=
  match max_retries r with Some m => retried_times r <? m | None => true end.

(** `2_i32.pow(e as u32)` (retry.rs:63).  `e as u32` is e mod 2^32; for exponents of 31 and more
    the exact power does not fit: debug panics, release computes it modulo 2^32, i.e. i32::MIN
    for 31 and 0 above. *)
Definition pow2_i32 (p : profile) (e : Z) : option Z :=
  let u := e mod 4294967296 in
  if u <=? 30 then Some (2 ^ u)
  else match p with
       | Debug => None
       | Release => Some (if u =? 31 then i32_min else 0)
       end.

(** aj_core/src/job/retry.rs:57-66 (Retry::retry_at) with the clock reading as argument.
    [None] is a panic (i32 overflow in debug builds, or a DateTime out of range). *)
Definition retry_retry_at (p : profile) (r : retry) (now : time) : option (retry * time) :=
  n ← i32_norm p (retried_times r + 1);
  let r' := Retry n (max_retries r) (strat r) in
  match strat r with
  | Interval d => t ← dt_add now d; Some (r', t)
  | ExponentialBackoff d => k ← pow2_i32 p n; t ← dt_add now (d * k); Some (r', t)
  end.

(** aj_core/src/queue.rs:19-41 (EnqueueConfig). *)
Record enqueue_config := EnqueueConfig { re_run : bool; override_data : bool }.
Definition new_re_run : enqueue_config := EnqueueConfig true true.
Definition new_skip_if_finished : enqueue_config := EnqueueConfig false true.

(** aj_core/src/queue.rs:15-16,43-62 (WorkQueueConfig).  The tick duration only says how long the
    runtime waits between ticks; ticks are events of the model and may come at any time. *)
Record wq_config := WqConfig { process_tick_duration : duration; max_processing_jobs : nat }.
Definition wq_config_default : wq_config := WqConfig (100 * 1000000) 20.

(** aj_core/src/error.rs:5-10; the From instances of error.rs:12-28 wrap an error of a library, as `?` does
    wherever such a call fails. *)
Inductive error := ERedis | ECron | EMailbox | ENoQueueRegister.
Inductive result (A : Type) := Ok (a : A) | Err (e : error).
Arguments Ok {A} _.
Arguments Err {A} _.

(** aj_core/src/backend/types.rs:11-14. *)
Inductive direction := Front | Back.
