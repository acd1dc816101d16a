(** Cron jobs without limits. *)
From Verif Require Export SpecLive.
Open Scope Z_scope.

Section ever.
  Context {M : Type}.
  Context (sched : string → option (time → option time)).

  (** Neither max_repeat nor end_at nor a retry rule, and a schedule that always has a next event. *)
  Definition without_end (j : job M) : Prop :=
    ∃ x slot n cc after, jtype (ctx j) = Cron x slot n cc ∧ max_repeat cc = None ∧ end_at cc = None ∧
      jretry (ctx j) = None ∧ sched x = Some after ∧ ∀ t, after t ≠ None.
  (** The clock passes every time. *)
  Definition time_goes_on (clock : nat → time) : Prop := ∀ t, ∃ k0, ∀ k, (k0 <= k)%nat → t < clock k.
End ever.
