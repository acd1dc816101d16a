(** A process with any number of job types whose backend is Redis.  As Office.v, with one connection to the server
    for all queues (aj.rs:123, redis.rs:9-24) and the commands of redis.rs:43-137.  Only effects of steps of queues
    touch the backend (queue.rs:115-391), so all other events are those of Office.v; the in-memory store of
    [ro_office] is not used. *)
From Verif Require Export Office.

Section office.
  Context {T : Type} {TD : EqDecision T}.
  Context (M : T → Type) {SM : ∀ t, Serde (M t)}.
  Context (prof : profile).
  Context (sched : string → option (time → option time)).
  Context (name : T → string).
  Context (clock : T → nat → time).

  (** The process, and the keys of the server. *)
  Record roffice := ROffice { ro_office : office M; ro_keys : keyspace }.
  Definition roffice_init (k : keyspace) : roffice := ROffice (office_init M store_empty) k.

  (** [ostep] of Office.v; the next effect of a step is a command to the server. *)
  Definition rostep (r : roffice) (oe : oevent M) : roffice :=
    match oe with
    | OEff t =>
        let o := ro_office r in
        let d := desks o t in
        match d_busy d with
        | Some (Busy c e n (Eff x k)) =>
            let (w, a) := redis_h (clock t) _ x (RWorld (ro_keys r) (d_reads d) (d_log d)) in
            ROffice (set_busy M o t (rreads w) (rlog w) (Some (Busy c e (S n) (k a))) (o_store o)) (keys w)
        | _ => r
        end
    | _ => ROffice (ostep M prof sched name clock (ro_office r) oe) (ro_keys r)
    end.
  Definition roffice_run (r : roffice) (oes : list (oevent M)) : roffice := fold_left rostep oes r.
End office.
Arguments ROffice {T M} _ _.
Arguments ro_office {T M} _.
Arguments ro_keys {T M} _.
