(** The work queue: aj_core/src/backend/types.rs:44-70, the effectful part of
    aj_core/src/job/mod.rs and aj_core/src/queue.rs, function by function, as programs.
    Logging (`info!`, `error!`, ...) is not modelled. *)
From Verif Require Export Backend.

(** aj_core/src/backend/types.rs:44. *)
Definition STORAGE_HASH : string := "aj_storage".

(** aj_core/src/queue.rs:97-99 (format_queue_name). *)
Definition format_queue_name (name : string) (s : status) : string :=
  name +:+ ":queue:" +:+ status_name s.

(** aj_core/src/util/mod.rs:3-13. *)
Definition get_now : prog time := do Now.
Definition ms_of (t : time) : Z := t / 1000000.
Definition get_now_as_ms : prog Z := let! t := get_now in Ret (ms_of t).

(** The batch size of queue_get in the picking loop, queue.rs:264. *)
Definition BATCH : nat := 20.

(** How the payload's `retry_at` (aj_core/src/job/executable.rs:30-42) behaves on one call: the
    default implementation, for which only the answer of its own call of is_failed_output (line 35)
    is free, or a custom one, which may set the retry state and answer arbitrarily. *)
Inductive retry_impl :=
  | DefaultRetryAt (failed : bool)
  | CustomRetryAt (r : retry) (at_ : option time).

Section queue.
  Context {M : Type} `{SM : Serde M}.
  (** Build profile. *)
  Context (prof : profile).
  (** The `cron` crate: `Schedule::from_str(e)` is [sched e] ([None]: parse error), and
      `schedule.after(&t).next()` is the schedule applied to t. *)
  Context (sched : string → option (time → option time)).
  (** The queue's name (queue.rs:65-74, 88-95).  storage_name (queue.rs:101-103) is not used anywhere. *)
  Context (name : string).

  Notation qname := (format_queue_name name).

  (** What user code did in one execution: the payload after pre_execute, execute and post_execute,
      whether is_failed_output holds for the output (queue.rs:334), and retry_at. *)
  Record user_result := UserResult {
    ur_data : M;
    ur_failed : bool;
    ur_retry : retry_impl;
  }.

  (** aj_core/src/job/job_context.rs:46-51 (JobType::new_cron). *)
  Definition new_cron (expression : string) (cc : cron_context) : prog (result job_type) :=
    match sched expression with
    | None => Ret (Err ECron)
    | Some after =>
        let! now := get_now in
        let next_tick := default now (after now) in
        Ret (Ok (Cron expression next_tick 1 cc))
    end.

  (** aj_core/src/backend/types.rs:46-58 (upsert_to_storage). *)
  Definition upsert_to_storage (key : string) (j : job M) : prog (result unit) :=
    do (SUpsert STORAGE_HASH key (enc_job j)).

  (** aj_core/src/backend/types.rs:60-70 (get_from_storage): read errors become None. *)
  Definition get_from_storage (key : string) : prog (result (option (job M))) :=
    let! r := do (SGet STORAGE_HASH key) in
    let v := match r with Ok o => o | Err _ => None end in
    Ret (Ok (match v with Some (Some js) => dec_job js | _ => None end)).

  (** Shared tail of the five functions below: upsert and notify (e.g. job/mod.rs:239-241). *)
  Definition save_and_notify (j : job M) : prog (result (job M)) :=
    let? _ := upsert_to_storage (jid j) j in
    let! _ := do (Send (ChangeStatus (jid j) (jstatus (ctx j)))) in
    Ret (Ok j).

  (** aj_core/src/job/mod.rs:235-242 (enqueue). *)
  Definition job_enqueue (j : job M) : prog (result (job M)) :=
    let! t := get_now_as_ms in
    save_and_notify (set_ctx j (set_enqueue_at (set_jstatus (ctx j) Queued) t)).
  (** aj_core/src/job/mod.rs:244-251 (process). *)
  Definition job_process (j : job M) : prog (result (job M)) :=
    let! t := get_now_as_ms in
    save_and_notify (set_ctx j (set_run_at (set_jstatus (ctx j) Running) t)).
  (** aj_core/src/job/mod.rs:253-260 (finish). *)
  Definition job_finish (j : job M) : prog (result (job M)) :=
    let! t := get_now_as_ms in
    save_and_notify (set_ctx j (set_complete_at (set_jstatus (ctx j) Finished) t)).
  (** aj_core/src/job/mod.rs:262-269 (cancel). *)
  Definition job_cancel (j : job M) : prog (result (job M)) :=
    let! t := get_now_as_ms in
    save_and_notify (set_ctx j (set_cancel_at (set_jstatus (ctx j) Canceled) t)).
  (** aj_core/src/job/mod.rs:271-278 (fail). *)
  Definition job_fail (j : job M) : prog (result (job M)) :=
    let! t := get_now_as_ms in
    save_and_notify (set_ctx j (set_complete_at (set_jstatus (ctx j) Failed) t)).

  (** aj_core/src/job/mod.rs:175-215 (next_tick). *)
  Definition next_tick (j : job M) : prog (option (job M)) :=
    let! now := get_now in
    match jtype (ctx j) with
    | Cron expression next_slot total_repeat cc =>
        match sched expression with
        | None => Ret None
        | Some after =>
            let! now2 := get_now in
            let check (j' : job M) :=
              if match max_repeat cc with Some m => m <? total_repeat | None => false end
              then Ret None
              else if match end_at cc with Some e => e <? now | None => false end
              then Ret None
              else Ret (Some j') in
            match after now2 with
            | Some upcoming =>
                match i32_norm prof (total_repeat + 1) with
                | None => Panic
                | Some n => check (set_ctx j (set_jtype (ctx j) (Cron expression upcoming n cc)))
                end
            | None => check j
            end
        end
    | _ => Ret None
    end.

  (** queue.rs:143-149 (enqueue). *)
  Definition enqueue (j : job M) : prog (result unit) :=
    let? _ := do (QPush (qname Queued) (jid j)) in
    let? _ := job_enqueue j in
    Ret (Ok tt).

  (** queue.rs:115-141 (run_with_config). *)
  Definition run_with_config (j : job M) (c : enqueue_config) : prog (result unit) :=
    let? existing := get_from_storage (jid j) in
    match existing with
    | Some ex =>
        let? _ :=
          if override_data c && negb (is_running ex)
          then upsert_to_storage (jid j) j
          else Ret (Ok tt) in
        if re_run c && is_done ex
        then let? _ := enqueue j in Ret (Ok tt)
        else Ret (Ok tt)
    | None => enqueue j
    end.

  (** queue.rs:151-163 (re_enqueue). *)
  Definition re_enqueue (j : job M) : prog (result unit) :=
    let? _ := do (QRemove (qname (jstatus (ctx j))) (jid j)) in
    let? j' := job_enqueue j in
    let! _ := do (QPush (qname Queued) (jid j')) in   (* an error is only logged *)
    Ret (Ok tt).

  (** queue.rs:165-171 (mark_job_is_canceled). *)
  Definition mark_job_is_canceled (id : string) : prog unit :=
    let! _ := do (QPush (qname Canceled) id) in Ret tt.

  (** queue.rs:203-211 (remove_processing_job): an error is only logged. *)
  Definition remove_processing_job (id : string) : prog unit :=
    let! _ := do (QRemove (qname Running) id) in Ret tt.

  (** queue.rs:173-183 (mark_job_is_finished). *)
  Definition mark_job_is_finished (j : job M) : prog (result unit) :=
    let! _ := remove_processing_job (jid j) in
    let? j' := job_finish j in
    let! _ := do (QPush (qname Finished) (jid j')) in
    Ret (Ok tt).

  (** queue.rs:192-201 (push_failed_job). *)
  Definition push_failed_job (id : string) : prog unit :=
    let! _ := remove_processing_job id in
    let! _ := do (QPush (qname Failed) id) in
    Ret tt.

  (** queue.rs:185-190 (mark_job_is_failed). *)
  Definition mark_job_is_failed (j : job M) : prog (result unit) :=
    let? j' := job_fail j in
    let! _ := push_failed_job (jid j') in
    Ret (Ok tt).

  (** queue.rs:213-219 (get_processing_job_ids). *)
  Definition get_processing_job_ids (count : nat) : prog (result (list string)) :=
    do (QGet (qname Running) count Front).

  (** queue.rs:269-300: one batch of job ids. *)
  Fixpoint pick_batch (total : nat) (ids : list string) (ready : list (job M))
      : prog (result (list (job M))) :=
    match ids with
    | [] => Ret (Ok ready)
    | id :: ids' =>
        let rotate :=
          let? _ := do (QMove (qname Queued) (qname Queued) 1 Back Front) in
          pick_batch total ids' ready in
        let? o := get_from_storage id in
        match o with
        | Some j =>
            let! now := get_now in
            if is_ready j now && (length ready <? total)%nat
               && negb (existsb (λ rj, String.eqb (jid rj) (jid j)) ready)
            then
              let? j' := job_process j in
              let? _ := do (QMove (qname Queued) (qname Running) 1 Back Front) in
              pick_batch total ids' (ready ++ [j'])
            else rotate
        | None => rotate
        end
    end.

  (** queue.rs:261-309: the loop.  [fuel] bounds the iterations; exhausting it is [Diverge]. *)
  Fixpoint pick_loop (fuel : nat) (total : nat) (ready : list (job M)) (cursor : Z)
      : prog (result (list (job M))) :=
    match fuel with
    | O => Diverge
    | S fuel' =>
        let? ids := do (QGet (qname Queued) BATCH Back) in
        match i32_norm prof (cursor - Z.of_nat (length ids)) with
        | None => Panic
        | Some cursor' =>
            let? ready' := pick_batch total ids ready in
            if (total <=? length ready')%nat then Ret (Ok ready')
            else if cursor' <=? 0 then Ret (Ok ready')
            else pick_loop fuel' total ready' cursor'
        end
    end.

  (** queue.rs:252-312 (try_pick_specific_ready_jobs). *)
  Definition try_pick_specific_ready_jobs (total : nat) : prog (result (list (job M))) :=
    let? len := do (QCount (qname Queued)) in
    pick_loop (S len) total [] (wrap32 (Z.of_nat len)).

  (** queue.rs:242-250 (pick_jobs_to_process). *)
  Definition pick_jobs_to_process (max_jobs : nat) : prog (result (list (job M))) :=
    let! r := do (QCount (qname Running)) in
    let processing := match r with Ok n => n | Err _ => 0%nat end in
    if (max_jobs <=? processing)%nat then Ret (Ok [])
    else try_pick_specific_ready_jobs (max_jobs - processing).

  (** The `retry_at` call in execute_job (queue.rs:341): the default of executable.rs:30-42 with
      Retry::retry_at (retry.rs:57-66), or a custom one.  Returns the mutated retry state. *)
  Definition call_retry_at (r : retry) (i : retry_impl) : prog (retry * option time) :=
    match i with
    | DefaultRetryAt failed =>
        if failed && should_retry r then
          let! now := get_now in
          match retry_retry_at prof r now with
          | Some (r', t) => Ret (r', Some t)
          | None => Panic
          end
        else Ret (r, None)
    | CustomRetryAt r' o => Ret (r', o)
    end.

  (** queue.rs:348-357: the part of execute_job after the retry decision. *)
  Definition execute_finish (j : job M) (failed : bool) : prog (result unit) :=
    let! n := next_tick j in
    match n with
    | Some nj => re_enqueue nj
    | None => if failed then mark_job_is_failed j else mark_job_is_finished j
    end.

  (** queue.rs:334-358: execute_job after `job.execute().await` returned.  [j] carries the payload and
      run count after the execution. *)
  Definition execute_tail (j : job M) (u : user_result) : prog (result unit) :=
    match jretry (ctx j) with
    | Some r =>
        let! '(r', o) := call_retry_at r (ur_retry u) in
        let j := set_ctx j (set_jretry (ctx j) (Some r')) in
        match o with
        | Some t => re_enqueue (set_ctx j (set_jtype (ctx j) (ScheduledAt t)))
        | None => execute_finish j (ur_failed u)
        end
    | None => execute_finish j (ur_failed u)
    end.

  (** queue.rs:316-322: the end of the spawned task; [orig] is the job before execution. *)
  Definition task_tail (orig j : job M) (u : user_result) : prog unit :=
    let! r := execute_tail j u in
    match r with
    | Ok _ => Ret tt
    | Err _ => let! _ := mark_job_is_failed orig in Ret tt
    end.

  (** queue.rs:360-373 (cancel_job). *)
  Definition cancel_job (id : string) : prog (result unit) :=
    let? o := get_from_storage id in
    match o with
    | Some j =>
        if is_queued j then
          let? _ := job_cancel j in
          let? _ := do (QRemove (qname Queued) id) in
          Ret (Ok tt)
        else Ret (Ok tt)
    | None => Ret (Ok tt)
    end.

  (** queue.rs:375-378 (get_job). *)
  Definition get_job (id : string) : prog (result (option (job M))) := get_from_storage id.

  (** queue.rs:380-399 (retry_job). *)
  Definition retry_job (id : string) : prog (result bool) :=
    let? o := get_from_storage id in
    match o with
    | Some j =>
        if is_done j then let? _ := re_enqueue j in Ret (Ok true) else Ret (Ok false)
    | None => Ret (Ok false)
    end.

End queue.
Arguments user_result : clear implicits.
Arguments UserResult {M} _ _ _.
Arguments ur_data {M} _.
Arguments ur_failed {M} _.
Arguments ur_retry {M} _.
