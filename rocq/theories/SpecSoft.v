(** Several processes on one queue that may die in the middle of most of their steps. *)
From Verif Require Export SpecWorkers SpecFleetRedis.
Open Scope Z_scope.

Section spec.
  Context {M : Type} `{SM : Serde M}.
  Context (prof : nat → profile).
  Context (sched : nat → string → option (time → option time)).
  Context (name : string).
  Context (clock : nat → nat → time).

  (** As [ok_fleet_event], but a process may die after any number of the effects of a step, unless the
      step is a submission or a cancellation. *)
  Definition ok_soft_event (w : world) (e : event M) : Prop :=
    match e with
    | EvEnqueue j _ =>
        jstatus (ctx j) = Queued ∨
        ∃ ex : job M, stored w (jid j) = Some ex ∧ jstatus (ctx ex) = jstatus (ctx j)
    | EvCrashIn (EvEnqueue _ _) _ | EvCrashIn (EvCancel _) _ => False
    | _ => True
    end.
  Fixpoint ok_soft (f : fleet M) (es : list (nat * event M)) : Prop :=
    match es with
    | [] => True
    | ie :: es' => ok_soft_event (f_world f) ie.2 ∧ ok_soft (fleet_step prof sched name clock f ie) es'
    end.

  (** The same on one Redis, where a process may die between any two calls of the backend. *)
  Definition rf_soft_event (w : rworld) (e : event M) : Prop :=
    match e with
    | EvEnqueue j _ =>
        jstatus (ctx j) = Queued ∨
        ∃ ex : job M, r_record w (jid j) = Some ex ∧ jstatus (ctx ex) = jstatus (ctx j)
    | EvCrashIn (EvEnqueue _ _) _ | EvCrashIn (EvCancel _) _ => False
    | _ => True
    end.
  Definition rf_soft (N : nat) (es : list (nat * event M)) : Prop :=
    ∀ k ie, es !! k = Some ie →
      rf_soft_event (rf_world (rf_after prof sched name clock N (take k es))) ie.2.

  (** No process is given a limit above L; 20 is what it starts with (queue.rs:50-55). *)
  Definition limits_within (L : nat) (es : list (nat * event M)) : Prop :=
    (20 <= L)%nat ∧ ∀ i c, (i, EvConfig c) ∈ es → (max_processing_jobs c <= L)%nat.
End spec.
