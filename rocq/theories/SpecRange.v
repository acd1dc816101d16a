(** The ranges of the Rust types of a job's numbers (aj_core/src/job/job_context.rs:11-33, 69-82,
    aj_core/src/job/retry.rs:7-23), which the model's integers do not have. *)
From Verif Require Export Spec.

Definition i32_ok (z : Z) : Prop := -2147483648 <= z <= 2147483647.
Definition i64_ok (z : Z) : Prop := -9223372036854775808 <= z <= 9223372036854775807.
(** DateTime<Utc>. *)
Definition time_ok (t : time) : Prop := dt_min <= t <= dt_max.
Definition opt_ok {A} (P : A → Prop) (o : option A) : Prop := match o with Some a => P a | None => True end.

Definition cc_ok (c : cron_context) : Prop :=
  i32_ok (tick_number c) ∧ opt_ok i32_ok (max_repeat c) ∧ opt_ok time_ok (end_at c).
Definition type_ok (t : job_type) : Prop :=
  match t with
  | Normal => True
  | ScheduledAt a => time_ok a
  | Cron _ n r c => time_ok n ∧ i32_ok r ∧ cc_ok c
  end.
(** A duration is stored as an i64 of microseconds (retry.rs:11, 14). *)
Definition strat_ok (s : strategy) : Prop :=
  match s with Interval d | ExponentialBackoff d => i64_ok (dur_to_us d) end.
Definition retry_ok (r : retry) : Prop :=
  i32_ok (retried_times r) ∧ opt_ok i32_ok (max_retries r) ∧ strat_ok (strat r).
(** A job in range, executed at most [n] times. *)
Definition job_ok {M} (n : nat) (j : job M) : Prop :=
  let c := ctx j in
  type_ok (jtype c) ∧ opt_ok retry_ok (jretry c) ∧ i64_ok (created_at c) ∧ opt_ok i64_ok (enqueue_at c) ∧
  opt_ok i64_ok (run_at c) ∧ opt_ok i64_ok (complete_at c) ∧ opt_ok i64_ok (cancel_at c) ∧
  (run_count c <= n)%nat.

(** What comes from outside is in range: submitted jobs and what an own retry_at answers. *)
Fixpoint event_ok {M} (n : nat) (e : event M) : Prop :=
  match e with
  | EvEnqueue j _ => job_ok n j
  | EvTask _ u =>
      match ur_retry u with CustomRetryAt r o => retry_ok r ∧ opt_ok time_ok o | DefaultRetryAt _ => True end
  | EvCrashIn e' _ => event_ok n e'
  | _ => True
  end.
(** A submitted job may come from the queue itself (update_job): its count may have grown by then. *)
Fixpoint events_ok {M} (n : nat) (es : list (event M)) : Prop :=
  match es with [] => True | e :: es' => event_ok n e ∧ events_ok (S n) es' end.
