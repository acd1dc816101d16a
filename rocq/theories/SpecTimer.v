(** Ticks in time. *)
From Verif Require Export Spec Timer.

Section spec.
  Context {M : Type} `{SM : Serde M}.
  Context (prof : profile).
  Context (sched : string → option (time → option time)).
  Context (name : string).
  Context {W : Type} (h : handler W).
  Notation tstep := (timed_step prof sched name h).
  Notation trun := (timed_run prof sched name h).

  (** The events of the queue itself in a timed history. *)
  Fixpoint untimed (t : timed W M) (es : list (tevent M)) : list (event M) :=
    match es with
    | [] => []
    | e :: es' =>
        match e with
        | TPass _ => []
        | TFire i _ => if expired t i then [EvTick] else []
        | TEv EvTick _ => []
        | TEv e _ => [e]
        end ++ untimed (tstep t e) es'
    end.

  (** A start of the actor, or a tick: when it begins and ends, and the period configured at its end. *)
  Inductive beat := Beat (start : bool) (begin end_ period : Z).
  Fixpoint beats (t : timed W M) (es : list (tevent M)) : list beat :=
    match es with
    | [] => []
    | e :: es' =>
        let t' := tstep t e in
        match e with
        | TFire i _ => if expired t i then [Beat false (tnow t) (tnow t') (tick_period (cfg (tq t')))] else []
        | TEv _ _ => if negb (alive (tq t)) && alive (tq t')
                   then [Beat true (tnow t) (tnow t') (tick_period (cfg (tq t')))] else []
        | _ => []
        end ++ beats t' es'
    end.
  (** Two consecutive ones: the second is a start, or it begins at least the period after the end of the first. *)
  Definition spaced (l : list beat) : Prop :=
    ∀ l1 b1 t1 u1 p1 b2 t2 u2 p2 l2, l = l1 ++ Beat b1 t1 u1 p1 :: Beat b2 t2 u2 p2 :: l2 →
      t1 <= u1 ∧ (b2 = true ∨ u1 + p1 <= t2).

  (** How much time passes in a history. *)
  Fixpoint elapsed (es : list (tevent M)) : Z :=
    match es with
    | [] => 0
    | (TPass d | TFire _ d | TEv _ d) :: es' => Z.max 0 d + elapsed es'
    end.

  (** Something holds in every state of a history, the first and the last included. *)
  Fixpoint throughout (P : timed W M → Prop) (t : timed W M) (es : list (tevent M)) : Prop :=
    P t ∧ match es with [] => True | e :: es' => throughout P (tstep t e) es' end.

  (** The runtime lets no timer wait for more than [late] after its deadline; the queue is alive. *)
  Definition punctual (late : Z) (t : timed W M) : Prop :=
    alive (tq t) = true ∧ ∀ d, d ∈ timers t → tnow t <= d + late.

  (** No period longer than [D] is ever configured (the default is 100 ms). *)
  Definition period_within (D : Z) (e : tevent M) : Prop :=
    match e with TEv (EvConfig c) _ => tick_period c <= D | _ => True end.
  (** No tick takes longer than [C]. *)
  Definition tick_within (C : Z) (e : tevent M) : Prop :=
    match e with TFire _ d => d <= C | _ => True end.

  (** A tick happens. *)
  Definition ticks_at (t : timed W M) (e : tevent M) : Prop := ∃ i d, e = TFire i d ∧ expired t i = true.

  (** Every tick of a history finds a free slot ([free]: the number of free slots). *)
  Fixpoint always_free (free : sys W M → nat) (t : timed W M) (es : list (tevent M)) : Prop :=
    match es with
    | [] => True
    | e :: es' => (ticks_at t e → (1 <= free (tq t))%nat) ∧ always_free free (tstep t e) es'
    end.
End spec.
