(** When a waiting job is taken by one of several processes. *)
From Verif Require Export SpecWorkers.

Section spec.
  Context {M : Type} `{SM : Serde M}.
  Context (prof : nat → profile).
  Context (sched : nat → string → option (time → option time)).
  Context (name : string).
  Context (clock : nat → nat → time).
  Notation fstep := (fleet_step prof sched name clock).

  (** Process i lives and its limit is above the number of ids in the common processing list. *)
  Definition has_slot (f : fleet M) (i : nat) : bool :=
    match f_members f !! i with
    | Some m => m_alive m && (length (qlist name (f_world f) Running) <? max_processing_jobs (m_cfg m))%nat
    | None => false
    end.
  (** Ticks, at any process, that find a free slot. *)
  Fixpoint useful_ticks (f : fleet M) (es : list (nat * event M)) : nat :=
    match es with
    | [] => 0
    | ie :: es' =>
        (match ie.2 with EvTick => if has_slot f ie.1 then 1 else 0 | _ => 0 end + useful_ticks (fstep f ie) es')%nat
    end.
  (** How often an id was added to the waiting list, net of what the same step took away. *)
  Fixpoint fleet_arrivals (f : fleet M) (es : list (nat * event M)) : nat :=
    match es with
    | [] => 0
    | ie :: es' =>
        (length (qlist name (f_world (fstep f ie)) Queued) - length (qlist name (f_world f) Queued)
         + fleet_arrivals (fstep f ie) es')%nat
    end.
  (** Process i has just started a task for id. *)
  Definition taken_by (f : fleet M) (i : nat) (id : string) : Prop :=
    ∃ m t, f_members f !! i = Some m ∧ m_alive m = true ∧ t ∈ m_tasks m ∧ tid t = id ∧ t_phase t = Spawned.
  (** The event sets no limit above L; a new process starts with the default of 20 (queue.rs:28-35). *)
  Definition up_to (L : nat) (e : event M) : Prop :=
    match e with EvConfig c => (max_processing_jobs c <= L)%nat | EvStart => (20 <= L)%nat | _ => True end.
End spec.
