(** The plugin centre next to a work queue whose store is Redis.  As [psys] of Plugin.v (plugin/mod.rs:10-131),
    with the commands of redis.rs:43-137 instead of those of mem.rs. *)
From Verif Require Export Plugin.

Section rpsys.
  Context {M : Type} `{SM : Serde M}.
  Context (prof : profile).
  Context (sched : string → option (time → option time)).
  Context (name : string).
  Context (clock : nat → time).
  (** TypeId of Job<M>. *)
  Context (ty : nat).

  (** As [psys]: queue, centre, what each task waits for, observations. *)
  Record rpsys := RPSys { rp_sys : sys rworld M; rp_center : center; rp_waits : list nat; rp_trace : list obs }.

  (** Nothing happened yet, and the keyspace is empty. *)
  Definition rpsys_init : rpsys := RPSys (sys_init rworld_empty) (Center [] [] [] 0) [] [].

  (** `send(msg).await` in plugin/mod.rs:44,56: the task waits for its answer. *)
  Definition r_blocked (s : rpsys) (e : event M) : bool :=
    match e with
    | EvTask i _ =>
        match tasks (rp_sys s) !! i, rp_waits s !! i with
        | Some t, Some n =>
            match t_phase t with
            | Hooked | AfterHook => unanswered (rp_center s) n
            | _ => false
            end
        | _, _ => false
        end
    | _ => false
    end.

  (** User code starting in this event (job/mod.rs:133-139). *)
  Definition r_starts (s : rpsys) (e : event M) : list obs :=
    match e with
    | EvTask i _ =>
        match tasks (rp_sys s) !! i, rp_waits s !! i with
        | Some t, Some n =>
            match t_phase t with
            | Hooked => if alive (rp_sys s) then [OStart n (jid (t_job t))] else []
            | _ => []
            end
        | _, _ => []
        end
    | _ => []
    end.

  (** As [psys_step]: the messages that the step of the queue sent (plugin/mod.rs:23-58) go into the mailbox. *)
  Definition rpsys_step (s : rpsys) (e : pevent M) : rpsys :=
    match e with
    | PEv e' =>
        if r_blocked s e' then s
        else
          let q := rp_sys s in
          let q' := fst (sys_step prof sched name (redis_h clock) q e') in
          let ms := drop (length (rlog (sw q))) (rlog (sw q')) in
          let ws := new_waits e' (length (tasks q)) (length (tasks q')) (c_next (rp_center s)) (rp_waits s) in
          match e' with
          | EvCrash | EvCrashIn _ _ =>
              RPSys q' (Center [] [] [] (c_next (rp_center s))) ws (rp_trace s ++ [OCrash])
          | _ =>
              let (c', os) := post ty ms (rp_center s) in
              RPSys q' c' ws (rp_trace s ++ r_starts s e' ++ os)
          end
    | PRegister p =>
        let c := rp_center s in
        RPSys (rp_sys s)
              (Center (c_plugins c) (c_box c ++ [(c_next c, MRegister p)]) (c_futs c) (S (c_next c)))
              (rp_waits s) (rp_trace s)
    | POther ty' m =>
        let (c', os) := post ty' [m] (rp_center s) in
        RPSys (rp_sys s) c' (rp_waits s) (rp_trace s ++ os)
    | PHandle =>
        let (c', os) := handle (rp_center s) in RPSys (rp_sys s) c' (rp_waits s) (rp_trace s ++ os)
    | PPoll i ok =>
        let (c', os) := poll (rp_center s) i ok in RPSys (rp_sys s) c' (rp_waits s) (rp_trace s ++ os)
    end.

  Definition rpsys_run (s : rpsys) (es : list (pevent M)) : rpsys := fold_left rpsys_step es s.
End rpsys.
Arguments rpsys : clear implicits.
Arguments RPSys {M} _ _ _ _.
Arguments rp_sys {M} _.
Arguments rp_center {M} _.
Arguments rp_waits {M} _.
Arguments rp_trace {M} _.
