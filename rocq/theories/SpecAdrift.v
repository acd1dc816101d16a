(** What is claimed about jobs in limbo when any number of processes race. *)
From Verif Require Export SpecRace.

Section adrift.
  Context {M : Type} `{SM : Serde M}.
  Context (name : nat → string).
  Implicit Types r : race M world.

  (** How often an id is in a list. *)
  Definition occurs (id : string) (l : list string) : nat := length (filter (λ x, x = id) l).
  (** Every record is stored under the id it says. *)
  Definition keyed (w : world) : Prop := ∀ k (j : job M), stored w k = Some j → jid j = k.
  (** No process is in the middle of a step, and none has a task of the id. *)
  Definition unattended r (id : string) : Prop :=
    ∀ i p, r_procs r !! i = Some p →
      p_now p = None ∧ ∀ t, t ∈ p_tasks p → jid (t_orig t) ≠ id ∧ jid (t_job t) ≠ id.
  (** The id is stored as running, waits in the queue of no process, and nobody works on it. *)
  Definition adrift r (id : string) (j : job M) : Prop :=
    keyed (r_world r) ∧ stored (r_world r) id = Some j ∧ jstatus (ctx j) = Running ∧
    (∀ i, id ∉ qlist (name i) (r_world r) Queued) ∧ unattended r id.
  (** Process i is submitting the id. *)
  Definition submits r (i : nat) (id : string) : Prop :=
    ∃ p j c q, r_procs r !! i = Some p ∧ p_now p = Some (EvEnqueue j c, q) ∧ jid j = id.
  (** No call of a submission of the id fails.  All other calls may. *)
  Definition submissions_work (id : string) r (x : race_event M) : Prop :=
    match x with RCall i f => submits r i id → f = FOk | _ => True end.
  (** The executions of the id. *)
  Definition executions (id : string) r : list (nat * job M) := filter (λ x, jid x.2 = id) (r_runs r).
  (** Everybody dies. *)
  Definition power_cut (n : nat) : list (race_event M) := map RDie (seq 0 n).
End adrift.
