(** What the status of a job tells about what has happened. *)
From Verif Require Export Spec.
Open Scope Z_scope.

Section why.
  Context {M : Type} `{SM : Serde M}.
  Context (schedule : string → option (time → option time)).
  Implicit Types (j : job M) (u : user_result M) (s : sys world M) (e : event M).

  (** Event [e] ends an execution of [id]: the user code, called with (the context of) [j], had returned [u]. *)
  Definition execution_ends s e (id : string) j u : Prop :=
    ∃ i t, e = EvTask i u ∧ tasks s !! i = Some t ∧ t_phase t = AfterHook ∧ t_job t = j ∧ jid j = id.

  (** The job is to be tried again: its own rule says when, or it failed and tries are left. *)
  Definition tries_again j u : Prop :=
    ∃ r, jretry (ctx j) = Some r ∧
      ((∃ r' t, ur_retry u = CustomRetryAt r' (Some t)) ∨
       (ur_retry u = DefaultRetryAt true ∧ ∀ m, max_retries r = Some m → retried_times r < m)).
  (** It is a cron job whose schedule goes on, or not ([N]: the readings of the clock made). *)
  Definition goes_on (N : time → Prop) j : Prop :=
    ∃ x slot n cc now, jtype (ctx j) = Cron x slot n cc ∧ schedule x ≠ None ∧ N now ∧
      (∀ m, max_repeat cc = Some m → n <= m) ∧ (∀ t, end_at cc = Some t → now <= t).
  Definition stops (N : time → Prop) j : Prop :=
    ∀ x slot n cc, jtype (ctx j) = Cron x slot n cc → schedule x ≠ None →
      (∃ m, max_repeat cc = Some m ∧ m < n) ∨ (∃ t now, end_at cc = Some t ∧ N now ∧ t < now).

  (** How an id comes into a status, by event [e] in state [s]. *)
  Definition came (N : time → Prop) s e (id : string) (st : status) : Prop :=
    match st with
    | Queued =>
        (∃ j c, e = EvEnqueue j c ∧ jid j = id) ∨ e = EvRetry id ∨
        (∃ j u, execution_ends s e id j u ∧ (tries_again j u ∨ goes_on N j))
    | Running =>
        (e = EvTick ∨ e = EvStart) ∧
        ∃ j now, stored (sw s) id = Some j ∧ jstatus (ctx j) = Queued ∧ N now ∧ due j now
    | Finished => ∃ j u, execution_ends s e id j u ∧ ur_failed u = false ∧ ¬ tries_again j u ∧ stops N j
    | Failed => ∃ j u, execution_ends s e id j u ∧ ur_failed u = true ∧ ¬ tries_again j u ∧ stops N j
    | Canceled => e = EvCancel id ∧ status_of s id = Some Queued
    end.
  (** The readings of the clock between two states. *)
  Definition clock_between (clock : nat → time) s (s' : sys world M) (t : time) : Prop :=
    ∃ k, (reads (sw s) <= k < reads (sw s'))%nat ∧ t = clock k.
End why.
