(** Several worker processes on one Redis.  As Workers.v, with the commands of redis.rs:43-137 on a keyspace
    that all processes share (redis.rs:9-24: every command opens a connection to the server it was given). *)
From Verif Require Export Workers.

Section workers.
  Context {M : Type} `{SM : Serde M}.
  Context (prof : nat → profile).
  Context (sched : nat → string → option (time → option time)).
  Context (name : string).
  Context (clock : nat → nat → time).

  (** The server's keys, the processes, and the executions of user code so far. *)
  Record rfleet := RFleet { rf_world : rworld; rf_members : list (member M); rf_runs : list (job M) }.

  (** One event at process i: its step of Sys.v with its own fields (queue.rs:47-55) and the commands of
      redis.rs.  Whole steps take turns, as in Workers.v. *)
  Definition rfleet_step (f : rfleet) (ie : nat * event M) : rfleet :=
    match rf_members f !! ie.1 with
    | None => f
    | Some m =>
        let s := (sys_step (prof ie.1) (sched ie.1) name (redis_h (clock ie.1))
                    (Sys (rf_world f) (m_cfg m) (m_tasks m) (m_alive m) (rf_runs f)) ie.2).1 in
        RFleet (sw s) (<[ie.1 := Member (cfg s) (tasks s) (alive s)]> (rf_members f)) (runs s)
    end.
  Definition rfleet_run (f : rfleet) (es : list (nat * event M)) : rfleet := fold_left rfleet_step es f.
  (** n processes, none started, and an empty keyspace. *)
  Definition rfleet_init (n : nat) : rfleet :=
    RFleet rworld_empty (repeat (Member wq_config_default [] false) n) [].
End workers.
Arguments rfleet M : clear implicits.
