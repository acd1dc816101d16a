(** Several work queues on one backend.  Every queue runs on its own thread (queue.rs:105-113, one
    Arbiter each), all with the same `Arc<dyn Backend>` (aj.rs:123); a backend call is atomic
    (mem.rs holds the mutex for the whole call), so threads interleave at backend calls. *)
From Verif Require Export Sys.

(** A panic or endless loop as a result. *)
Fixpoint catch {A} (p : prog A) : prog (outcome A) :=
  match p with
  | Ret a => Ret (Done a)
  | Panic => Ret Panicked
  | Diverge => Ret Diverged
  | Eff e k => Eff e (λ x, catch (k x))
  end.
(** The first n effects of a program. *)
Fixpoint cut {A} (n : nat) (p : prog A) : prog unit :=
  match n, p with
  | S n', Eff e k => Eff e (λ x, cut n' (k x))
  | _, _ => Ret tt
  end.

(** The state of a queue without the world. *)
Definition own_state {W M} (s : sys W M) : sys unit M := Sys tt (cfg s) (tasks s) (alive s) (runs s).

Section hist_prog.
  Context {M : Type} `{SM : Serde M}.
  Context (prof : profile).
  Context (sched : string → option (time → option time)).
  Context (name : string).

  (** [commit], [sys_step] and [sys_run] of Sys.v, as programs; the queue's own state is a [sys]
      without a world. *)
  Definition commit_prog (s : sys unit M) (e : event M) : prog (sys unit M * response M) :=
    let! o := catch (ev_prog prof sched name (cfg s) (tasks s) e) in
    Ret (match o with
         | Done (c, ts, js, r) => (Sys tt c ts true (runs s ++ js), r)
         | _ => (Sys tt (cfg s) [] false (runs s), RNone)
         end).
  Definition step_prog (s : sys unit M) (e : event M) : prog (sys unit M * response M) :=
    if alive s then
      match e with
      | EvStart => Ret (s, RNone)
      | EvPanic | EvCrash => Ret (Sys tt (cfg s) [] false (runs s), RNone)
      | EvCrashIn e' n =>
          let! _ := match e' with
                    | EvStart => Ret tt
                    | _ => cut n (ev_prog prof sched name (cfg s) (tasks s) e')
                    end in
          Ret (Sys tt (cfg s) [] false (runs s), RNone)
      | _ => commit_prog s e
      end
    else
      match e with
      | EvStart => commit_prog s e
      | EvCrashIn EvStart n =>
          let! _ := cut n (ev_prog prof sched name (cfg s) (tasks s) EvStart) in
          Ret (Sys tt (cfg s) [] false (runs s), RNone)
      | _ => Ret (s, dead_response e)
      end.
  (** A whole history: the final state of the queue and the answers. *)
  Fixpoint hist_prog (s : sys unit M) (es : list (event M)) : prog (sys unit M * list (response M)) :=
    match es with
    | [] => Ret (s, [])
    | e :: es' =>
        let! '(s', r) := step_prog s e in
        let! '(s'', rs) := hist_prog s' es' in
        Ret (s'', r :: rs)
    end.
End hist_prog.

(** A thread: what it still has to do, its clock, how often it read it, the messages it sent. *)
Record thread := Thread {
  th_res : Type;
  th_prog : prog th_res;
  th_clock : nat → time;
  th_reads : nat;
  th_log : list msg;
}.

(** One effect of a thread on the shared store. *)
Definition thread_step (t : thread) (s : store) : thread * store :=
  match th_prog t with
  | Eff e k =>
      let (w, x) := mem_h (th_clock t) _ e (World s (th_reads t) (th_log t)) in
      (Thread (th_res t) (k x) (th_clock t) (reads w) (log w), st w)
  | _ => (t, s)
  end.
(** The schedule says which thread performs the next effect. *)
Fixpoint joint (schedule : list nat) (ts : list thread) (s : store) : list thread * store :=
  match schedule with
  | [] => (ts, s)
  | i :: schedule' =>
      match ts !! i with
      | Some t => let (t', s') := thread_step t s in joint schedule' (<[i := t']> ts) s'
      | None => joint schedule' ts s
      end
  end.

(** The same on Redis: each command is atomic; [redis_h] of Backend.v. *)
Definition thread_step_redis (t : thread) (k : keyspace) : thread * keyspace :=
  match th_prog t with
  | Eff e f =>
      let (w, x) := redis_h (th_clock t) _ e (RWorld k (th_reads t) (th_log t)) in
      (Thread (th_res t) (f x) (th_clock t) (rreads w) (rlog w), keys w)
  | _ => (t, k)
  end.
Fixpoint joint_redis (schedule : list nat) (ts : list thread) (k : keyspace) : list thread * keyspace :=
  match schedule with
  | [] => (ts, k)
  | i :: schedule' =>
      match ts !! i with
      | Some t => let (t', k') := thread_step_redis t k in joint_redis schedule' (<[i := t']> ts) k'
      | None => joint_redis schedule' ts k
      end
  end.
