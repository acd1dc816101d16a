(** A fleet that gets no more work. *)
From Verif Require Export SpecFleetFair SpecDrain.
Open Scope Z_scope.

Section rest.
  Context {M : Type} `{SM : Serde M}.
  Context (name : string).

  (** As [no_new_work], and processes may start. *)
  Definition f_no_new_work (e : event M) : Prop := no_new_work e ∨ e = EvStart.
  (** The ids that wait or that some process has a task for. *)
  Definition to_do (f : fleet M) : list string := qlist name (f_world f) Queued ++ map tid (all_tasks f).
  (** How often they can still be executed, one of them and all together. *)
  Definition f_executions_left (f : fleet M) (id : string) : nat :=
    match stored (f_world f) id with Some j => S (tries_left (M := M) j) | None => 0 end.
  Definition f_work_left (f : fleet M) : nat := sum_list_with (f_executions_left f) (to_do f).
End rest.
