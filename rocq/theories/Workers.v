(** Several worker processes on one queue.  Nothing in the code keeps a second process with the same
    job type from using the same Redis: the keys depend on the queue name only (queue.rs:93-96,
    redis.rs:43-137), and a queue starts with whatever the keys hold (queue.rs:105-113).  The README
    lists a distributed mode as not done yet; a rolling restart of a service already has two processes
    for a while.  The order of single commands of the processes is [joint_redis] of Multi.v; here whole
    steps of the processes take turns. *)
From Verif Require Export Multi.

Section workers.
  Context {M : Type} `{SM : Serde M}.
  (** The processes may be different builds, on different machines. *)
  Context (prof : nat → profile).
  Context (sched : nat → string → option (time → option time)).
  Context (name : string).
  Context (clock : nat → nat → time).

  (** What a process has for itself: queue.rs:47-55 and the tasks on its arbiter. *)
  Record member := Member { m_cfg : wq_config; m_tasks : list (task M); m_alive : bool }.
  (** The shared storage, the processes, and the executions of user code so far.  The world's count of
      clock readings is common to all, which is no restriction as every process has a clock of its own. *)
  Record fleet := Fleet { f_world : world; f_members : list member; f_runs : list (job M) }.

  (** The queue as one of its processes sees it. *)
  Definition seen_by (f : fleet) (m : member) : sys world M :=
    Sys (f_world f) (m_cfg m) (m_tasks m) (m_alive m) (f_runs f).
  (** One event at process i. *)
  Definition fleet_step (f : fleet) (ie : nat * event M) : fleet :=
    match f_members f !! ie.1 with
    | None => f
    | Some m =>
        let s := (sys_step (prof ie.1) (sched ie.1) name (mem_h (clock ie.1)) (seen_by f m) ie.2).1 in
        Fleet (sw s) (<[ie.1 := Member (cfg s) (tasks s) (alive s)]> (f_members f)) (runs s)
    end.
  Definition fleet_run (f : fleet) (es : list (nat * event M)) : fleet := fold_left fleet_step es f.
  (** n processes, none started, and an empty storage. *)
  Definition fleet_init (n : nat) : fleet :=
    Fleet world_empty (repeat (Member wq_config_default [] false) n) [].
End workers.
Arguments fleet M : clear implicits.
Arguments member M : clear implicits.
