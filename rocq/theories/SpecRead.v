(** Vocabulary for how stored jobs are read: which JSON values are read as which job.  Stated with the
    set of fields of an object, so the order of the fields plays no role. *)
From Verif Require Export Json.

(** [l] has the fields of the struct: an object that has none of the names [ks] twice, or an array that
    lists the values in the order of [ks]. *)
Definition struct (ks : list string) (v : json) (l : list (string * json)) : Prop :=
  (v = JObj l ∧ ∀ k, k ∈ ks → ∀ i i' x x', l !! i = Some (k, x) → l !! i' = Some (k, x') → i = i') ∨
  (∃ vs, v = JArr vs ∧ length vs = length ks ∧
         ∀ i k x, l !! i = Some (k, x) ↔ ks !! i = Some k ∧ vs !! i = Some x).

Definition lacks (l : list (string * json)) (k : string) : Prop := ∀ x, (k, x) ∉ l.
(** An optional field: absent or null is None. *)
Definition optional {A} (R : json → A → Prop) (l : list (string * json)) (k : string) (o : option A) : Prop :=
  match o with
  | None => lacks l k ∨ (k, JNull) ∈ l
  | Some a => ∃ x, (k, x) ∈ l ∧ x ≠ JNull ∧ R x a
  end.
Definition is_num (v : json) (z : Z) : Prop := v = JNum z.
(** A time stands as microseconds. *)
Definition is_us (v : json) (t : time) : Prop := ∃ u, v = JNum u ∧ t = 1000 * u.

Definition reads_status (v : json) (s : status) : Prop :=
  ∃ n, (v = JStr n ∨ v = JObj [(n, JNull)]) ∧
       (n, s) ∈ [("Queued", Queued); ("Running", Running); ("Finished", Finished); ("Failed", Failed); ("Canceled", Canceled)].

Definition reads_cc (v : json) (c : cron_context) : Prop :=
  ∃ l, struct ["tick_number"; "max_repeat"; "end_at"] v l ∧
       ("tick_number", JNum (tick_number c)) ∈ l ∧
       optional is_num l "max_repeat" (max_repeat c) ∧
       optional is_us l "end_at" (end_at c) ∧ ¬ lacks l "end_at".

(** A cron type may lack the context, and also the count. *)
Inductive reads_type : json → job_type → Prop :=
  | rt_normal : reads_type (JStr "Normal") Normal
  | rt_normal_null : reads_type (JObj [("Normal", JNull)]) Normal
  | rt_scheduled v t : is_us v t → reads_type (JObj [("ScheduledAt", v)]) (ScheduledAt t)
  | rt_cron e v t n c cc :
      is_us v t → reads_cc c cc → reads_type (JObj [("Cron", JArr [JStr e; v; JNum n; c])]) (Cron e t n cc)
  | rt_cron3 e v t n :
      is_us v t → reads_type (JObj [("Cron", JArr [JStr e; v; JNum n])]) (Cron e t n (CronContext 0 None None))
  | rt_cron2 e v t :
      is_us v t → reads_type (JObj [("Cron", JArr [JStr e; v])]) (Cron e t 0 (CronContext 0 None None)).

Inductive reads_strat : json → strategy → Prop :=
  | rs_interval v d : is_us v d → reads_strat (JObj [("Interval", v)]) (Interval d)
  | rs_backoff v d : is_us v d → reads_strat (JObj [("ExponentialBackoff", v)]) (ExponentialBackoff d).

Definition reads_retry (v : json) (r : retry) : Prop :=
  ∃ l x, struct ["retried_times"; "max_retries"; "strategy"] v l ∧
       ("retried_times", JNum (retried_times r)) ∈ l ∧
       optional is_num l "max_retries" (max_retries r) ∧
       ("strategy", x) ∈ l ∧ reads_strat x (strat r).

(** Without an id the job has the empty id. *)
Definition reads_context (v : json) (c : context) : Prop :=
  ∃ l x y, struct ["job_id"; "job_type"; "job_status"; "retry"; "created_at"; "enqueue_at"; "run_at";
                   "complete_at"; "cancel_at"; "run_count"] v l ∧
       (("job_id", JStr (job_id c)) ∈ l ∨ lacks l "job_id" ∧ job_id c = "") ∧
       ("job_type", x) ∈ l ∧ reads_type x (jtype c) ∧
       ("job_status", y) ∈ l ∧ reads_status y (jstatus c) ∧
       optional reads_retry l "retry" (jretry c) ∧
       ("created_at", JNum (created_at c)) ∈ l ∧
       optional is_num l "enqueue_at" (enqueue_at c) ∧
       optional is_num l "run_at" (run_at c) ∧
       optional is_num l "complete_at" (complete_at c) ∧
       optional is_num l "cancel_at" (cancel_at c) ∧
       ("run_count", JNum (Z.of_nat (run_count c))) ∈ l.

Definition reads_job {M} `{Serde M} (v : json) (j : job M) : Prop :=
  ∃ l c d, struct ["context"; "data"] v l ∧
       ("context", c) ∈ l ∧ reads_context c (ctx j) ∧ ("data", d) ∈ l ∧ de d = Some (data j).
