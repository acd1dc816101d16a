(** A queue that gets no more work. *)
From Verif Require Export SpecLive.
Open Scope Z_scope.

Section drain.
  Context {M : Type} `{SM : Serde M}.
  Context (name : string).

  (** Queries, changes of the settings, ticks, and polls of tasks whose user code does not set the time of
      another try by a retry_at of its own. *)
  Definition no_new_work (e : event M) : Prop :=
    match e with
    | EvGet _ | EvConfig _ | EvTick => True
    | EvTask _ u => ∀ r t, ur_retry u ≠ CustomRetryAt r (Some t)
    | _ => False
    end.
  (** The tries that a job has left. *)
  Definition tries_left (j : job M) : nat :=
    match jretry (ctx j) with
    | Some r => match max_retries r with Some m => Z.to_nat (m - retried_times r) | None => 0 end
    | None => 0
    end.
  (** Neither a cron job nor one that is tried for ever; the counters are i32. *)
  Definition ends_some_day (j : job M) : Prop :=
    (∀ x slot n cc, jtype (ctx j) ≠ Cron x slot n cc) ∧
    (∀ r, jretry (ctx j) = Some r → i32_min <= retried_times r ∧ ∃ m, max_retries r = Some m ∧ m <= i32_max).

  (** The ids that wait or are being executed. *)
  Definition pending (s : sys world M) : list string := qlist name (sw s) Queued ++ qlist name (sw s) Running.
  (** How often a pending id can still be executed, and all of them together. *)
  Definition executions_left (s : sys world M) (id : string) : nat :=
    match stored (sw s) id with Some j => S (tries_left j) | None => 0 end.
  Definition work_left (s : sys world M) : nat := sum_list_with (executions_left s) (pending s).
End drain.
