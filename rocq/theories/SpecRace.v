(** What is claimed about processes whose steps overlap. *)
From Verif Require Export Spec SpecValue Race.

Section spec.
  Context {M : Type} `{SM : Serde M}.
  Context (prof : nat → profile).
  Context (sched : nat → string → option (time → option time)).
  Context (name : nat → string).
  Context (clock : nat → nat → time).
  Notation rstep := (race_step prof sched name (λ i, mem_h (clock i))).

  (** The state after the events [xs], for n processes on the in-memory backend. *)
  Definition race_after (n : nat) (xs : list (race_event M)) : race M world :=
    race_run prof sched name (λ i, mem_h (clock i)) (race_init world_empty n) xs.

  (** Every event satisfies [Q] in the state in which it occurs. *)
  Fixpoint ralong (Q : race M world → race_event M → Prop) (r : race M world) (xs : list (race_event M)) : Prop :=
    match xs with
    | [] => True
    | x :: xs' => Q r x ∧ ralong Q (rstep r x) xs'
    end.

  (** A task of process i. *)
  Definition has_task (r : race M world) (i k : nat) (t : task M) : Prop :=
    ∃ p, r_procs r !! i = Some p ∧ p_tasks p !! k = Some t.
  (** As [payload_event], [submitted_in], [stamped_event] of SpecValue.v. *)
  Definition payload_race (P : string → M → Prop) (r : race M world) (x : race_event M) : Prop :=
    match x with
    | RBegin i (EvEnqueue j _) _ => P (jid j) (data j)
    | RBegin i (EvTask k u) _ => ∀ t, has_task r i k t → t_phase t = InUser → P (jid (t_job t)) (ur_data u)
    | _ => True
    end.
  Definition begun (x : race_event M) : option (event M) :=
    match x with RBegin _ e _ => Some e | _ => None end.
  Definition submitted_to (xs : list (race_event M)) (j0 : job M) : Prop :=
    ∃ x c, x ∈ xs ∧ begun x = Some (EvEnqueue j0 c).
  Definition stamped_race (time_at : nat → time) (r : race M world) (x : race_event M) : Prop :=
    match begun x with
    | Some (EvEnqueue j _) => stamps (ms_of (time_at (reads (r_world r)))) j
    | _ => True
    end.

  (** Process i picked the execution [j]: the job was due at a reading of its clock, and its run_at is a
      later reading. *)
  Definition picked_by (r : race M world) (i : nat) (j : job M) : Prop :=
    ∃ k k', (k < k' < reads (r_world r))%nat ∧ due j (clock i k) ∧ run_at (ctx j) = Some (ms_of (clock i k')).

  (** *** Waiting ids *)
  (** The id is in the waiting or in the processing list of the queue [q]. *)
  Definition listed (q : string) (w : world) (id : string) : Prop :=
    id ∈ qlist q w Queued ∨ id ∈ qlist q w Running.
  Definition recorded (w : world) (id : string) : Prop := mem_sget (st w) STORAGE_HASH id ≠ None.
  (** Steps that take an id out of a list: cancel_job and retry_job of the id, and the end of its
      execution. *)
  Definition touches (id : string) (ts : list (task M)) (e : event M) : Prop :=
    match e with
    | EvCancel i | EvRetry i => i = id
    | EvTask k _ => ∃ t, ts !! k = Some t ∧ t_phase t = AfterHook ∧ (jid (t_job t) = id ∨ jid (t_orig t) = id)
    | _ => False
    end.
  (** No step begins that takes [id] out of a list, and [id] is submitted to the queue [q] only. *)
  Definition untouched (q id : string) (r : race M world) (x : race_event M) : Prop :=
    match x with
    | RBegin i e _ =>
        (∀ p, r_procs r !! i = Some p → ¬ touches id (p_tasks p) e) ∧
        match e with EvEnqueue j _ => jid j = id → name i = q | _ => True end
    | _ => True
    end.

  (** *** The picking loop *)
  (** The same event with another bound on the rounds of the loop. *)
  Definition same_but_fuel (x y : race_event M) : Prop :=
    match x, y with
    | RBegin i e _, RBegin i' e' _ => i = i' ∧ e = e'
    | _, _ => x = y
    end.
  Definition fuel_at_least (n : nat) (x : race_event M) : Prop :=
    match x with RBegin _ _ fuel => (n <= fuel)%nat | _ => True end.
  (** What a process shows: all but the rest of the step it is doing. *)
  Definition shown (p : proc M) : wq_config * list (task M) * bool * option (event M) :=
    (p_cfg p, p_tasks p, p_alive p, fst <$> p_now p).
  (** No other process takes ids from the waiting list of the queue of process i. *)
  Definition spares (i : nat) (x : race_event M) : Prop :=
    match x with
    | RBegin k e _ =>
        k = i ∨ name k ≠ name i ∨ match e with EvTick | EvStart | EvCancel _ => False | _ => True end
    | _ => True
    end.
  Definition idle (r : race M world) (i : nat) : Prop := ∃ p, r_procs r !! i = Some p ∧ p_now p = None.
  (** The loop of process i has used up its rounds. *)
  Definition exhausted (r : race M world) (i : nat) : Prop :=
    ∃ p e, r_procs r !! i = Some p ∧ p_now p = Some (e, Diverge).
  (** The first n events of an endless race. *)
  Definition up_to (s : nat → race_event M) (n : nat) : list (race_event M) := map s (seq 0 n).
End spec.
