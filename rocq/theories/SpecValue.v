(** What is stored under an id and what user code is called with, whatever fails. *)
From Verif Require Export Spec.

Section value_spec.
  Context {M : Type} `{SM : Serde M}.
  Context (prof : profile).
  Context (sched : string → option (time → option time)).
  Context (name : string).
  Context (clock : nat → time).
  Context (faults : nat → fault).
  Notation fstep := (sys_step prof sched name (faulty_h clock faults)).

  (** The step an event performs, completely or up to a crash. *)
  Fixpoint core (e : event M) : event M :=
    match e with EvCrashIn e' _ => core e' | _ => e end.
  (** Every event of a history satisfies [Q] in the state in which it occurs. *)
  Fixpoint along (Q : sys fworld M → event M → Prop) (s : sys fworld M) (es : list (event M)) : Prop :=
    match es with
    | [] => True
    | e :: es' => Q s e ∧ along Q (fstep s e).1 es'
    end.

  (** Payloads: what is submitted for an id, and what user code makes of the payload in an execution
      of that id, is related to the id by [P]. *)
  Definition payload_event (P : string → M → Prop) (s : sys fworld M) (e : event M) : Prop :=
    match core e with
    | EvEnqueue j _ => P (jid j) (data j)
    | EvTask i u =>
        ∀ t, tasks s !! i = Some t → t_phase t = InUser → P (jid (t_job t)) (ur_data u)
    | _ => True
    end.

  (** [j] is a later state of the job [j0], as far as the queue's own bookkeeping may change it. *)
  Definition same_dur (d0 d : duration) : Prop := d = d0 ∨ near_us d0 d.
  Definition retry_from (o0 o : option retry) : Prop :=
    match o0, o with
    | None, None => True
    | Some r0, Some r =>
        max_retries r = max_retries r0 ∧
        match strat r0, strat r with
        | Interval d0, Interval d => same_dur d0 d
        | ExponentialBackoff d0, ExponentialBackoff d => same_dur d0 d
        | _, _ => False
        end
    | _, _ => False
    end.
  Definition type_from (retries : Prop) (t0 t : job_type) : Prop :=
    match t0, t with
    | Cron e0 _ _ c0, Cron e _ _ c =>
        e = e0 ∧ max_repeat c = max_repeat c0 ∧
        match end_at c0, end_at c with
        | None, None => True
        | Some t0, Some t => t = t0 ∨ cut_us t0 t
        | _, _ => False
        end
    | Normal, Normal => True
    | ScheduledAt t0, ScheduledAt t => t = t0 ∨ cut_us t0 t ∨ retries
    | _, ScheduledAt _ => retries
    | _, _ => False
    end.
  Definition derived (j0 j : job M) : Prop :=
    jid j = jid j0 ∧ created_at (ctx j) = created_at (ctx j0) ∧
    retry_from (jretry (ctx j0)) (jretry (ctx j)) ∧
    type_from (jretry (ctx j0) ≠ None) (jtype (ctx j0)) (jtype (ctx j)).
  (** Some event of the history submits [j0]. *)
  Definition submitted_in (es : list (event M)) (j0 : job M) : Prop :=
    ∃ e c, e ∈ es ∧ core e = EvEnqueue j0 c.

  (** Retry counters within their limits. *)
  Definition in_limit (j : job M) : Prop :=
    ∀ r, jretry (ctx j) = Some r →
      i32_min <= retried_times r ∧ ∀ m, max_retries r = Some m → retried_times r <= m.

  (** The time stamps of a job are not after [now], and in the order of its life. *)
  Definition stamps (now : Z) (j : job M) : Prop :=
    let c := ctx j in
    created_at c <= now ∧ (∀ t, enqueue_at c = Some t → created_at c <= t <= now) ∧
    (∀ t, run_at c = Some t → t <= now) ∧ (∀ t, complete_at c = Some t → t <= now) ∧
    (∀ t, cancel_at c = Some t → t <= now) ∧
    match jstatus c with
    | Queued => True
    | Running => ∃ r, run_at c = Some r ∧ ∀ e, enqueue_at c = Some e → e <= r
    | Finished | Failed =>
        ∃ r f, run_at c = Some r ∧ complete_at c = Some f ∧ r <= f ∧ ∀ e, enqueue_at c = Some e → e <= r
    | Canceled => ∃ x, cancel_at c = Some x ∧ ∀ e, enqueue_at c = Some e → e <= x
    end.
  Definition stamped_event (s : sys fworld M) (e : event M) : Prop :=
    match core e with EvEnqueue j _ => stamps (ms_of (clock (reads (fw (sw s))))) j | _ => True end.
End value_spec.
