(** Specifications for the first use of job types and for AJ::start. *)
From Verif Require Export Registry.

(** Every job type has its queue name, no two the same. *)
Definition uses_names (nm : nat → string) (e : reg_event) : Prop :=
  match e with RRun ty n | RJust ty n => n = nm ty | _ => True end.

(** A call looks for the queue only when no other call of the type is about to have it registered. *)
Definition registering (s : reg) (ty : nat) : Prop :=
  ∃ i c x, calls s !! i = Some (c, x) ∧ c_type c = ty ∧ (x = CInit ∨ x = CWait).
Definition takes_turn (s : reg) (e : reg_event) : Prop :=
  match e with
  | RStep i => ∀ c, calls s !! i = Some (c, CLook) → ¬ registering s (c_type c)
  | _ => True
  end.
Fixpoint orderly (s : reg) (es : list reg_event) : Prop :=
  match es with [] => True | e :: es' => takes_turn s e ∧ orderly (reg_step s e) es' end.

(** All submitted jobs reached the queue of their type. *)
Definition all_sent (s : reg) : Prop :=
  inbox s = [] ∧
  ∀ i c x, calls s !! i = Some (c, x) → ∃ a n, x = CSent a ∧ started s !! a = Some (c_type c, n).
Definition internal (e : reg_event) : Prop := match e with RStep _ | RHandle => True | _ => False end.

(** A call of AJ::start or get_aj_address that has ended. *)
Definition ended_call (x : start_state) : bool :=
  match x with SReturned _ | SPanicked | GReturned _ => true | _ => false end.
(** How many steps of call [i] a history has. *)
Definition steps_of (i : nat) (es : list boot_event) : nat :=
  length (List.filter (λ e, match e with BStep k => Nat.eqb k i | _ => false end) es).
(** The calls that hold the lock for reading, for writing. *)
Definition reading (x : start_state) : bool := match x with SFirstHeld | SSecondHeld | GHeld => true | _ => false end.
Definition writing (x : start_state) : bool := match x with SWriting _ => true | _ => false end.
Definition how_many (P : start_state → bool) (s : boot) : nat := length (List.filter P (threads s)).
(** A call of run or just_run that has ended. *)
Definition final (x : call_state) : bool := match x with CSent _ | CFailed | CDropped => true | _ => false end.
