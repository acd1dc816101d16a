(** The timers of a work queue: `ctx.run_later(..)` in process_jobs (aj_core/src/queue.rs:237-239).
    [Sys.v] lets ticks come at any time; here they come from the actor's own pending timers. *)
From Verif Require Export Sys.

(** The queue, the runtime's (monotonic) time in nanoseconds, and the deadlines of the pending timers of
    the actor.  The runtime's time and the readings of `get_now` are independent. *)
Record timed (W M : Type) := Timed {
  tq : sys W M;
  tnow : Z;
  timers : list Z;
}.
Arguments Timed {W M} _ _ _.
Arguments tq {W M} _.
Arguments tnow {W M} _.
Arguments timers {W M} _.

Inductive tevent (M : Type) :=
  | TPass (d : Z)         (* time passes *)
  | TFire (i : nat) (d : Z)       (* the i-th pending timer fires, if it has expired; it may be late; the tick takes [d] *)
  | TEv (e : event M) (d : Z).    (* anything but a tick, taking [d] *)
Arguments TPass {M} _.
Arguments TFire {M} _ _.
Arguments TEv {M} _ _.

Definition timed_init {W M} (w : W) : timed W M := Timed (sys_init w) 0 [].

(** std::time::Duration is never negative. *)
Definition tick_period (c : wq_config) : Z := Z.max 0 (process_tick_duration c).

Section timer.
  Context {M : Type} `{SM : Serde M}.
  Context (prof : profile).
  Context (sched : string → option (time → option time)).
  Context (name : string).
  Context {W : Type} (h : handler W).

  (** queue.rs:237: a new timer, with the duration configured at this moment. *)
  Definition arm (s : sys W M) (now : Z) : Z := now + tick_period (cfg s).

  (** Has the i-th timer expired? *)
  Definition expired (t : timed W M) (i : nat) : bool :=
    match timers t !! i with Some d => d <=? tnow t | None => false end.

  (** process_jobs runs when a timer fires (queue.rs:226-240) and when the actor is created
      (105-113); each time it arms one timer.  UpdateWorkQueue (queue.rs:535-545) and all other handlers
      arm none.  The timers die with the actor (actix drops the context).  Steps take time, as much as they like,
      and time passes between them; process_jobs arms the timer at its end (queue.rs:237, `run_later` takes the
      time of the call). *)
  Definition later (now d : Z) : Z := now + Z.max 0 d.
  Definition timed_step (t : timed W M) (e : tevent M) : timed W M :=
    match e with
    | TPass d | TEv EvTick d => Timed (tq t) (later (tnow t) d) (timers t)
    | TFire i d =>
        if expired t i
        then let s := fst (sys_step prof sched name h (tq t) EvTick) in
             Timed s (later (tnow t) d)
               (if alive s then delete i (timers t) ++ [arm s (later (tnow t) d)] else [])
        else Timed (tq t) (later (tnow t) d) (timers t)
    | TEv e d =>
        let s := fst (sys_step prof sched name h (tq t) e) in
        Timed s (later (tnow t) d)
          (if alive s then timers t ++ (if alive (tq t) then [] else [arm s (later (tnow t) d)]) else [])
    end.

  Definition timed_run (t : timed W M) (es : list (tevent M)) : timed W M := fold_left timed_step es t.
End timer.
