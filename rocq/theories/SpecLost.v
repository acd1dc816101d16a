(** What is claimed about cancelling a job while other processes work. *)
From Verif Require Export Spec SpecRace.

Section spec.
  Context {M : Type} `{SM : Serde M}.
  (** Nobody submits [id], and nobody cancel_alone ([b]) or nobody retries it (not [b]). *)
  Definition leaves_alone (id : string) (b : bool) (e : event M) : Prop :=
    match e with
    | EvEnqueue j _ => jid j ≠ id
    | EvCancel k => b = false ∨ k ≠ id
    | EvRetry k => b = true ∨ k ≠ id
    | _ => True
    end.
  Definition alone (id : string) (b : bool) (x : race_event M) : Prop :=
    match begun x with Some e => leaves_alone id b e | None => True end.
  (** No process is in the middle of a step, or has taken a job of [id]. *)
  Definition at_rest (id : string) (r : race M world) : Prop :=
    ∀ i p, r_procs r !! i = Some p →
      p_now p = None ∧ Forall (λ t, jid (t_orig t) ≠ id ∧ jid (t_job t) ≠ id) (p_tasks p).
  (** The executions of [id]. *)
  Definition runs_in (id : string) (r : race M world) : list (nat * job M) := filter (λ x, jid x.2 = id) (r_runs r).
  (** Process i cancel_alone [id]; nobody else does anything meanwhile. *)
  Definition cancel_alone (i : nat) (id : string) : list (race_event M) :=
    RBegin i (EvCancel id) 0 :: repeat (RCall i FOk) 6.
End spec.
