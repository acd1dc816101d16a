(** Which jobs can be brought back by calls of the API. *)
From Verif Require Export SpecAny.

Section back.
  Context {M : Type} `{SM : Serde M}.
  Context (name : string).

  (** Stored as running, not waiting, and without a task. *)
  Definition in_limbo (s : sys world M) (id : string) : Prop :=
    status_of s id = Some Running ∧ id ∉ qlist name (sw s) Queued ∧ id ∉ map tid (tasks s).

  (** Cancel the id, submit [j] under it, make room, let the timer fire, and let the new task run. *)
  Definition rescue (j : job M) (c : wq_config) (i : nat) (u : user_result M) : list (event M) :=
    [EvCancel (jid j); EvEnqueue j (EnqueueConfig true true); EvConfig c; EvTick; EvTask i u; EvTask i u].
  (** Make room, let the timer fire, and let the new task run. *)
  Definition wait_for (c : wq_config) (i : nat) (u : user_result M) : list (event M) :=
    [EvConfig c; EvTick; EvTask i u; EvTask i u].
End back.
