(** Executions that are to be followed by another one, and jobs that are stored as waiting but are in
    no list. *)
From Verif Require Export Spec.

(** What the end of such an execution comes to. *)
Inductive fate :=
  | Waits       (* stored as waiting, in the waiting list *)
  | Stray       (* stored as waiting, not in the waiting list *)
  | GivenUp     (* stored as Failed, as it was picked *)
  | Untouched.  (* nothing written *)
(** The three calls that decide: take the id off the processing list, write the job, put the id into
    the waiting list.  After a failure of one of the first two the next calls are those of
    "mark as failed": write the job, ... *)
Definition fate_of (remove write push : fault) : fate :=
  match remove, write, push with
  | FOk, FOk, FBefore => Stray
  | FOk, FOk, _ => Waits
  | FOk, FAfter, FBefore => Stray
  | FOk, FBefore, FBefore => Untouched
  | FOk, _, _ => GivenUp
  | _, FBefore, _ => Untouched
  | _, _, _ => GivenUp
  end.

Section spec.
  Context {M : Type} `{SM : Serde M}.
  (** Nobody cancels [id], and jobs submitted under it are as [Job::new] makes them: Queued. *)
  Fixpoint no_way_back (id : string) (e : event M) : Prop :=
    match e with
    | EvCancel k => k ≠ id
    | EvEnqueue j _ => jid j = id → jstatus (ctx j) = Queued
    | EvCrashIn e' _ => no_way_back id e'
    | _ => True
    end.

  (** After the execution of [j] with the outcome [u] no retry follows: the job has no retry rule; or the
      rule is the default one, and the execution was no failure or the retries are used up; or the
      implementation's own retry_at names no time.  [jr] is the job then. *)
  Inductive not_retried (j : job M) (u : user_result M) : job M → Prop :=
    | nr_none : jretry (ctx j) = None → not_retried j u j
    | nr_default r b :
        jretry (ctx j) = Some r → ur_retry u = DefaultRetryAt b →
        b = false ∨ (∃ x, max_retries r = Some x ∧ x <= retried_times r) → not_retried j u j
    | nr_custom r r' :
        jretry (ctx j) = Some r → ur_retry u = CustomRetryAt r' None →
        not_retried j u (Job (set_jretry (ctx j) (Some r')) (data j)).

  (** The execution of [j] with the outcome [u], ending at [now] ([now2]: the next clock reading), is
      to be followed by another one, of [nj]: a failed job with retries left, an implementation whose
      own retry_at names a time, or a cron job within its bounds; if its schedule has no next event, the
      job keeps its slot. *)
  Inductive goes_on (sched : string → option (time → option time)) (now now2 : time)
      (j : job M) (u : user_result M) : job M → Prop :=
    | go_retry c m d :
        jretry (ctx j) = Some (Retry c m (Interval d)) → ur_retry u = DefaultRetryAt true →
        (∀ x, m = Some x → c < x) → i32_min - 1 <= c < i32_max → dt_min <= now + d <= dt_max →
        goes_on sched now now2 j u
          (Job (set_jtype (set_jretry (ctx j) (Some (Retry (c + 1) m (Interval d)))) (ScheduledAt (now + d))) (data j))
    | go_backoff c m d :
        jretry (ctx j) = Some (Retry c m (ExponentialBackoff d)) → ur_retry u = DefaultRetryAt true →
        (∀ x, m = Some x → c < x) → -1 <= c < 30 → dt_min <= now + d * 2 ^ (c + 1) <= dt_max →
        goes_on sched now now2 j u
          (Job (set_jtype (set_jretry (ctx j) (Some (Retry (c + 1) m (ExponentialBackoff d))))
                  (ScheduledAt (now + d * 2 ^ (c + 1)))) (data j))
    | go_custom r r' t :
        jretry (ctx j) = Some r → ur_retry u = CustomRetryAt r' (Some t) →
        goes_on sched now now2 j u (Job (set_jtype (set_jretry (ctx j) (Some r')) (ScheduledAt t)) (data j))
    | go_cron jr e slot n cc f up :
        not_retried j u jr → jtype (ctx j) = Cron e slot n cc → sched e = Some f → f now2 = Some up →
        i32_min - 1 <= n < i32_max → (∀ x, max_repeat cc = Some x → n <= x) → (∀ x, end_at cc = Some x → now <= x) →
        goes_on sched now now2 j u (Job (set_jtype (ctx jr) (Cron e up (n + 1) cc)) (data j))
    | go_same jr e slot n cc f :
        not_retried j u jr → jtype (ctx j) = Cron e slot n cc → sched e = Some f → f now2 = None →
        (∀ x, max_repeat cc = Some x → n <= x) → (∀ x, end_at cc = Some x → now <= x) →
        goes_on sched now now2 j u jr.

  (** It is the last one, and [jr] is the job then. *)
  Definition ends (sched : string → option (time → option time)) (now : time)
      (j : job M) (u : user_result M) (jr : job M) : Prop :=
    not_retried j u jr ∧
    ∀ e slot n cc, jtype (ctx j) = Cron e slot n cc → sched e ≠ None →
      i32_min - 1 <= n < i32_max ∧
      ((∃ x, max_repeat cc = Some x ∧ x < n) ∨ (∃ x, end_at cc = Some x ∧ x < now)).

  (** No counter overflows, no time is out of range. *)
  Definition in_range (now : time) (j : job M) : Prop :=
    match jretry (ctx j) with
    | Some (Retry c _ (Interval d)) => i32_min - 1 <= c < i32_max ∧ dt_min <= now + d <= dt_max
    | Some (Retry c _ (ExponentialBackoff d)) => -1 <= c < 30 ∧ dt_min <= now + d * 2 ^ (c + 1) <= dt_max
    | None => True
    end ∧
    match jtype (ctx j) with Cron _ _ n _ => i32_min - 1 <= n < i32_max | _ => True end.

  (** The two writes that decide what is stored at the end of the last execution: the result, and, if
      that fails, the job as it was picked. *)
  Definition result_of (write again : fault) : option bool :=
    match write, again with
    | FOk, _ | FAfter, FBefore => Some true      (* the result *)
    | FBefore, FBefore => None                   (* nothing is written *)
    | _, _ => Some false                         (* the job as it was picked, as Failed *)
    end.
End spec.
