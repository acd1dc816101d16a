(** What is claimed about the way from the output of the user code to the record of the job. *)
From Verif Require Export Spec SpecCount SpecWhy.
Open Scope Z_scope.

Section output.
  Context {M : Type} `{SM : Serde M}.
  Context (prof : profile).
  Context (sched : string → option (time → option time)).
  Context (name : string).
  Context (clock : nat → time).
  Notation after := (after prof sched name clock).

  (** All executions of this history are of the code [c]: whenever a task in user code, or after it, is
      polled, the result is that of [c] on the job with which the last call of user code for this id was made. *)
  Definition executed_by {O} (c : code M O) (es : list (event M)) : Prop :=
    ∀ es1 i u es2 t j, es = es1 ++ EvTask i u :: es2 →
      tasks (after es1) !! i = Some t → t_phase t = InUser ∨ t_phase t = AfterHook →
      list.last (runs_of (tid t) (after es1)) = Some j → u = code_result c j.
End output.

(** After an execution of [c] on [j] that left [d] and returned [o], there is to be another try. *)
Definition another_try {M O} (c : code M O) (j : job M) (d : M) (o : O) : Prop :=
  ∃ r, jretry (ctx j) = Some r ∧
    match retry_at c with
    | Some f => (f d r o).2 ≠ None
    | None => is_failed_output c d o = true ∧ ∀ m, max_retries r = Some m → retried_times r < m
    end.
(** The status in which an execution ends if there is none. *)
Definition end_status {M O} (c : code M O) (d : M) (o : O) : status :=
  if is_failed_output c d o then Failed else Finished.
