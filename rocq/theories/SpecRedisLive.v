(** Endless executions of a queue whose store is Redis. *)
From Verif Require Export SpecLive SpecDrain SpecEver.
Open Scope Z_scope.

Section spec.
  Context {M : Type} `{SM : Serde M}.
  Context (prof : profile).
  Context (sched : string → option (time → option time)).
  Context (name : string).
  Context (clock : nat → time).

  (** What LRANGE of a status' list and HGET of an id give. *)
  Definition r_list (w : rworld) (s : status) : list string :=
    match keys w !! format_queue_name name s with Some (RList l) => l | _ => [] end.
  Definition r_record (w : rworld) (id : string) : option (job M) :=
    match keys w !! STORAGE_HASH with
    | Some (RHash m) => match m !! id with Some (Some js) => dec_job js | _ => None end
    | _ => None
    end.

  (** The state after the first [n] of endlessly many events, from an empty keyspace. *)
  Definition r_moment (ev : nat → event M) (n : nat) : sys rworld M :=
    sys_run prof sched name (redis_h clock) (sys_init rworld_empty) (EvStart :: map ev (seq 0 n)).

  (** The process stays alive, the limit is never 0, submitted jobs are new. *)
  Definition r_healthy (ev : nat → event M) : Prop :=
    ∀ n, calm (ev n) ∧ plain_event (ev n) ∧ alive (r_moment ev n) = true ∧
      (1 <= max_processing_jobs (cfg (r_moment ev n)))%nat.
  (** Every spawned task is always polled again. *)
  Definition r_polling (ev : nat → event M) : Prop :=
    ∀ n t, t ∈ tasks (r_moment ev n) →
      ∃ m i u t', (n <= m)%nat ∧ ev m = EvTask i u ∧ tasks (r_moment ev m) !! i = Some t' ∧ tid t' = tid t.

  (** The ids that wait or are being executed, and how often they can still be executed. *)
  Definition r_pending (w : rworld) : list string := r_list w Queued ++ r_list w Running.
  Definition r_work_left (w : rworld) : nat :=
    sum_list_with (λ id, match r_record w id with Some j => S (tries_left j) | None => O end) (r_pending w).
End spec.
