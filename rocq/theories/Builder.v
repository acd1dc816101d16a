(** The builder functions of aj_core/src/job/mod.rs:51-124, called by the submitting code (not by the
    queue's actor) before AJ::add_job.  A chain `job.a(..).b(..).c(..)` is a list of calls. *)
From Verif Require Export Queue.

(** The builder calls: set_id (mod.rs:65-68), set_context/context (70-77), set_job_type/job_type
    (80-87), schedule_at (93-95), delay (101-104), cron (110-113), set_retry/retry (117-124). *)
Inductive bcall :=
  | BId (id : string)
  | BContext (c : context)
  | BType (t : job_type)
  | BScheduleAt (t : time)
  | BDelay (d : duration)
  | BCron (expression : string)
  | BRetry (r : retry).

Section builder.
  Context {M : Type}.
  Context (sched : string → option (time → option time)).

  (** mod.rs:110-113 (cron): `JobType::new_cron(..).unwrap()`. *)
  Definition job_cron (j : job M) (expression : string) : prog (job M) :=
    let! r := new_cron sched expression cron_context_default in
    match r with Ok t => Ret (job_set_type j t) | Err _ => Panic end.

  (** mod.rs:101-104 (delay): the addition panics outside the range of DateTime. *)
  Definition job_delay_now (j : job M) (d : duration) : prog (job M) :=
    let! now := get_now in
    match job_delay j now d with Some j' => Ret j' | None => Panic end.

  (** One builder call. *)
  Definition build_call (j : job M) (b : bcall) : prog (job M) :=
    match b with
    | BId id => Ret (job_set_id j id)
    | BContext c => Ret (set_ctx j c)
    | BType t => Ret (job_set_type j t)
    | BScheduleAt t => Ret (job_schedule_at j t)
    | BDelay d => job_delay_now j d
    | BCron e => job_cron j e
    | BRetry r => Ret (job_set_retry j r)
    end.

  (** A chain of calls on a job. *)
  Fixpoint build_calls (j : job M) (bs : list bcall) : prog (job M) :=
    match bs with
    | [] => Ret j
    | b :: bs' => let! j' := build_call j b in build_calls j' bs'
    end.

  (** mod.rs:51-57 (Job::new; also `payload.job()`, aj_macro/src/lib.rs:19-21), then a chain.  The random uuid is an
      argument.  JobContext::new reads the clock for created_at (job_context.rs:90). *)
  Definition build (uuid : string) (d : M) (bs : list bcall) : prog (job M) :=
    let! now_ms := get_now_as_ms in
    build_calls (job_new uuid now_ms d) bs.
End builder.
