(** Endless executions of a queue. *)
From Verif Require Export Spec.

Section live.
  Context {M : Type} `{SM : Serde M}.
  Context (prof : profile).
  Context (sched : string → option (time → option time)).
  Context (name : string).
  Context (clock : nat → time).
  Notation after := (after prof sched name clock).

  (** The state after the first [n] of endlessly many events. *)
  Definition moment (ev : nat → event M) (n : nat) : sys world M := after (EvStart :: map ev (seq 0 n)).

  (** The process stays alive, the limit is never 0, submitted jobs are well formed. *)
  Definition healthy (ev : nat → event M) : Prop :=
    ∀ n, calm (ev n) ∧ alive (moment ev n) = true ∧ (1 <= max_processing_jobs (cfg (moment ev n)))%nat ∧
      ok_hist prof sched name clock initial (EvStart :: map ev (seq 0 n)).

  (** The timer always fires again. *)
  Definition ticking (ev : nat → event M) : Prop := ∀ n, ∃ m, (n <= m)%nat ∧ ev m = EvTick.

  (** Every spawned task is always polled again (user code ends). *)
  Definition polling (ev : nat → event M) : Prop :=
    ∀ n t, t ∈ tasks (moment ev n) →
      ∃ m i u t', (n <= m)%nat ∧ ev m = EvTask i u ∧ tasks (moment ev m) !! i = Some t' ∧ tid t' = tid t.
End live.
