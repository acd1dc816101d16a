(** Other programs on the same Redis server that change other records, too. *)
From Verif Require Export SpecKeys SpecMulti.
Open Scope Z_scope.

Section noise.
  Context {M : Type} `{SM : Serde M}.
  Context (name : string).
  (** The ids of the queue. *)
  Context (K : string → Prop).

  (** What HGET answers. *)
  Definition held (ks : keyspace) (id : string) : option value :=
    match ks !! STORAGE_HASH with Some (RHash m) => m !! id | _ => None end.
  (** The same lists of the queue and records of its ids. *)
  Definition same_part (w w' : rworld) : Prop :=
    (∀ s, r_list name w s = r_list name w' s) ∧ (∀ id, K id → held (keys w) id = held (keys w') id) ∧
    rreads w = rreads w' ∧ rlog w = rlog w'.
  (** Other programs leave the lists of the queue and the records of its ids alone; the common hash stays a hash.
      Anything else they may write, also records of other ids, and records of other types. *)
  Definition fair_share (noise : nat → keyspace → keyspace) : Prop := ∀ n ks,
    (∀ s, noise n ks !! format_queue_name name s = ks !! format_queue_name name s) ∧
    (∀ id, K id → held (noise n ks) id = held ks id) ∧
    ((∀ l, ks !! STORAGE_HASH ≠ Some (RList l)) → ∀ l, noise n ks !! STORAGE_HASH ≠ Some (RList l)).
  (** Lists, records and tasks of the queue are about its ids. *)
  Definition keeps_to (s : sys rworld M) : Prop :=
    (∀ x id, id ∈ r_list name (sw s) x → K id) ∧
    (∀ id js (j : job M), K id → held (keys (sw s)) id = Some (Some js) → dec_job js = Some j → K (jid j)) ∧
    (∀ t, t ∈ tasks s → K (jid (t_orig t)) ∧ K (jid (t_job t))).
End noise.
