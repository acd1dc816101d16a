(** What is claimed about the space that jobs take in the storage. *)
From Verif Require Export Spec SpecRace.

(** The entries of all lists of a storage. *)
Definition entries (w : world) : nat := map_fold (λ _ l n, (length l + n)%nat) 0%nat (queues (st w)).

Section spec.
  Context {M : Type} `{SM : Serde M}.
  (** Steps that may add an entry: submissions, retries, polls of tasks. *)
  Definition adds (e : event M) : bool :=
    match e with EvEnqueue _ _ | EvRetry _ | EvTask _ _ => true | _ => false end.
  Definition added (xs : list (race_event M)) : nat :=
    length (List.filter (λ x, match begun x with Some e => adds e | None => false end) xs).
  Definition submitted_id (xs : list (race_event M)) (id : string) : Prop :=
    ∃ j, submitted_to xs j ∧ jid j = id.
End spec.
