(** Callers and timers of a queue whose store is Redis. *)
From Verif Require Export SpecRedisLive SpecEnd SpecTimer.
Open Scope Z_scope.

Section spec.
  Context {M : Type} `{SM : Serde M}.
  Context (prof : profile).
  Context (sched : string → option (time → option time)).
  Context (name : string).
  Context (clock : nat → time).

  (** A queue on Redis shows what one on the in-memory store shows. *)
  Definition shows_same (s : sys world M) (r : sys rworld M) : Prop :=
    cfg r = cfg s ∧ tasks r = tasks s ∧ alive r = alive s ∧ runs r = runs s ∧
    (∀ x, r_list name (sw r) x = qlist name (sw s) x) ∧ (∀ id, r_record (M := M) (sw r) id = stored (sw s) id).

  (** By how much the waiting list has grown, added up over the steps in which it has grown. *)
  Fixpoint r_arrivals (s : sys rworld M) (es : list (event M)) : nat :=
    match es with
    | [] => 0
    | e :: es' =>
        let s' := (sys_step prof sched name (redis_h clock) s e).1 in
        (length (r_list name (sw s') Queued) - length (r_list name (sw s) Queued) + r_arrivals s' es')%nat
    end.

  (** Slots that a tick would find free. *)
  Definition r_free_slots (s : sys rworld M) : nat :=
    if alive s then (max_processing_jobs (cfg s) - length (r_list name (sw s) Running))%nat else 0%nat.

  (** run() or just_run() of the job [j]. *)
  Definition call_for (j : job M) (c : call M) : Prop := (∃ ec, c = CRun j ec) ∨ c = CJust j.
End spec.
