(** What is claimed about several processes on one queue. *)
From Verif Require Export Spec Workers.

Section spec.
  Context {M : Type} `{SM : Serde M}.
  Context (prof : nat → profile).
  Context (sched : nat → string → option (time → option time)).
  Context (name : string).
  Context (clock : nat → nat → time).

  (** The tasks of all processes. *)
  Definition all_tasks (f : fleet M) : list (task M) := concat (map m_tasks (f_members f)).
  Definition fleet_after (n : nat) (es : list (nat * event M)) : fleet M :=
    fleet_run prof sched name clock (fleet_init n) es.

  (** As [ok_hist] of Spec.v. *)
  Definition ok_fleet_event (w : world) (e : event M) : Prop :=
    match e with
    | EvEnqueue j _ =>
        jstatus (ctx j) = Queued ∨
        ∃ ex : job M, stored w (jid j) = Some ex ∧ jstatus (ctx ex) = jstatus (ctx j)
    | EvCrashIn _ _ => False
    | _ => True
    end.
  Fixpoint ok_fleet (f : fleet M) (es : list (nat * event M)) : Prop :=
    match es with
    | [] => True
    | ie :: es' => ok_fleet_event (f_world f) ie.2 ∧ ok_fleet (fleet_step prof sched name clock f ie) es'
    end.

  Definition f_runs_of (id : string) (f : fleet M) : list (job M) := filter (λ j, jid j = id) (f_runs f).
  Definition f_status_of (f : fleet M) (id : string) : option status :=
    (λ j : job M, jstatus (ctx j)) <$> stored (f_world f) id.
End spec.
