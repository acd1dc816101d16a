(** Callers of the API in front of one queue: the functions of AJ (aj.rs:137-252), the messages of the
    queue (queue.rs:402-559), mailboxes, and the registration of the queue by the first submission.  Any
    number of calls may be on their way at the same time, from any threads.
    One job type; for several types and names see Office.v and Registry.v.  A mailbox is first in, first out; callers
    who wait for a place in a full mailbox have not sent yet. *)
From Verif Require Export Sys.

Section client.
  Context {M : Type} `{SM : Serde M}.
  Context (prof : profile).
  Context (sched : string → option (time → option time)).
  Context (name : string).
  Context {W : Type} (h : handler W).

  Inductive call :=
    | CRun (j : job M) (ec : enqueue_config)          (* aj.rs:137-158; run(): aj.rs:230-239, lib.rs:46-48 *)
    | CJust (j : job M)                               (* lib.rs:51-58, aj.rs:304-311 *)
    | CCancel (id : string)                           (* aj.rs:160-172 *)
    | CGet (id : string)                              (* aj.rs:174-185 *)
    | CUpdate (id : string) (d : M) (c : option context)   (* aj.rs:187-215 *)
    | CRetry (id : string)                            (* aj.rs:217-228 *)
    | CConfig (c : wq_config).                        (* aj.rs:241-252 *)

  (** Where a call is. *)
  Inductive place :=
    | AtSpawn                 (* just_run: JustRunJob is in AJ's mailbox *)
    | AtLookup                (* before get_work_queue_address, e.g. aj.rs:146 *)
    | AtInit                  (* no queue: before send(InitWorkQueue), aj.rs:148-155 *)
    | InitSent                (* waits for AJ, aj.rs:155 *)
    | AtSend                  (* has the address, before addr.send(..), e.g. queue.rs:429 *)
    | MsgSent                 (* waits for the queue *)
    | Returned (r : response M) (at_step : nat)   (* the answer; the number of queue steps by then *)
    | Gone.                   (* dropped with AJ or with the process *)

  (** [c_upd]: the job that update_job submits, once it has got the stored one (aj.rs:204-209).
      [c_from]: the number of queue steps before the call (for statements only). *)
  Record cstate := CState { c_call : call; c_upd : option (job M); c_at : place; c_from : nat }.
  Definition goto (c : cstate) (p : place) : cstate := CState (c_call c) (c_upd c) p (c_from c).

  (** The message a call sends to the queue next. *)
  Definition msg_of (c : cstate) : event M :=
    match c_upd c with
    | Some j => ev_run j
    | None =>
        match c_call c with
        | CRun j ec => EvEnqueue j ec
        | CJust j => ev_run j
        | CCancel id => EvCancel id
        | CGet id | CUpdate id _ _ => EvGet id
        | CRetry id => EvRetry id
        | CConfig cf => EvConfig cf
        end
    end.
  (** Does it register the queue if there is none? *)
  Definition inits (c : cstate) : bool :=
    match c_call c with
    | CRun _ _ | CJust _ => true
    | CUpdate _ _ _ => match c_upd c with Some _ => true | None => false end
    | _ => false
    end.

  (** The call goes on with the queue's answer, [n] queue steps having been made. *)
  Definition recv (n : nat) (c : cstate) (r : response M) : cstate :=
    match c_call c, c_upd c with
    | CUpdate id d cx, None =>
        match r with
        | RJob (Some j) => CState (c_call c) (Some (Job (default (ctx j) cx) d)) AtLookup (c_from c)
        | _ => goto c (Returned (RUnit (Ok tt)) n)
        end
    | _, _ => goto c (Returned r n)
    end.
  (** No queue (aj.rs:170, 183, 226, 250). *)
  Definition no_queue (c : cstate) : response M :=
    match c_call c with
    | CGet _ | CUpdate _ _ _ => RJob None
    | CRetry _ => RBool (Err ENoQueueRegister)
    | _ => RUnit (Err ENoQueueRegister)
    end.

  (** The process.  [known]: the queue is in the registry; [begun]: its actor has started (it starts on
      its own thread, queue.rs:105-113, some time after the address is known).  [trace]: the steps of
      the queue so far, with the call that caused them and the answer. *)
  Record front := Front {
    q : sys W M;
    known : bool;
    begun : bool;
    q_box : list nat;
    aj_up : bool;
    aj_box : list nat;
    cs : list cstate;
    trace : list (option nat * event M * response M);
  }.
  Definition front_init (w : W) : front := Front (sys_init w) false false [] true [] [] [].
  Definition set_cs (f : front) (l : list cstate) : front :=
    Front (q f) (known f) (begun f) (q_box f) (aj_up f) (aj_box f) l (trace f).

  (** The mailbox of the queue takes messages, before the actor starts too, until the actor is gone. *)
  Definition mailbox_open (f : front) : bool := known f && (negb (begun f) || alive (q f)).

  (** The actor is gone: who waits for it gets a mailbox error. *)
  Definition orphaned (n : nat) (c : cstate) : cstate :=
    match c_at c with MsgSent => recv n c (dead_response (msg_of c)) | _ => c end.
  (** The queue has made a step, caused by call [o]; the caller gets the answer unless the queue died. *)
  Definition settle (f : front) (o : option nat) (box : list nat) (e : event M) (s : sys W M) (r : response M) : front :=
    let tr := trace f ++ [(o, e, r)] in
    let n := length tr in
    if alive s then
      let l := match o with
               | Some i => alter (λ c, match c_at c with MsgSent => recv n c r | _ => c end) i (cs f)
               | None => cs f
               end in
      Front s (known f) true box (aj_up f) (aj_box f) l tr
    else
      Front s (known f) true [] (aj_up f) (aj_box f) (orphaned n <$> cs f) tr.
  Definition queue_step (f : front) (o : option nat) (box : list nat) (e : event M) : front :=
    let (s, r) := sys_step prof sched name h (q f) e in settle f o box e s r.

  (** AJ is gone: the futures it ran are dropped, who waits for it gets a mailbox error. *)
  Definition lose_aj (n : nat) (c : cstate) : cstate :=
    match c_at c with
    | Returned _ _ => c
    | p => match c_call c, p with
           | CJust _, _ => goto c Gone
           | _, InitSent => goto c (Returned (RUnit (Err EMailbox)) n)
           | _, _ => c
           end
    end.
  Definition aj_gone (f : front) : front :=
    Front (q f) (known f) (begun f) (q_box f) false [] (lose_aj (length (trace f)) <$> cs f) (trace f).
  (** The process dies with all its calls; a new one starts with nothing but the backend. *)
  Definition lose_all (c : cstate) : cstate :=
    match c_at c with Returned _ _ => c | _ => goto c Gone end.
  Definition process_dies (f : front) (e : event M) : front :=
    let (s, r) := sys_step prof sched name h (q f) e in
    Front s false false [] true [] (lose_all <$> cs f) (trace f ++ [(None, e, r)]).

  (** What the queue does by itself. *)
  Definition own_event (e : event M) : bool :=
    match e with EvTick | EvTask _ _ | EvPanic => true | _ => false end.

  Inductive fevent :=
    | FCall (c : call)              (* some thread makes a call *)
    | FGo (i : nat)                 (* the i-th call proceeds *)
    | FAj                           (* AJ handles its next message *)
    | FAjGone                       (* AJ dies of a message of another job type, see Office.v *)
    | FBegin                        (* the queue's actor starts *)
    | FHandle                       (* the queue handles its next message *)
    | FOwn (e : event M)            (* the queue's timer, or one of its tasks *)
    | FCrash                        (* the process dies between two steps of the queue, *)
    | FCrashIn (e : option (event M)) (n : nat).
                                    (* or inside a step: a message, a step of its own, or the start *)

  Definition fstep (f : front) (fe : fevent) : front :=
    let n := length (trace f) in
    match fe with
    | FCall (CJust j) =>
        let i := length (cs f) in
        if aj_up f
        then Front (q f) (known f) (begun f) (q_box f) true (aj_box f ++ [i])
               (cs f ++ [CState (CJust j) None AtSpawn n]) (trace f)
        else set_cs f (cs f ++ [CState (CJust j) None Gone n])
    | FCall c => set_cs f (cs f ++ [CState c None AtLookup n])
    | FGo i =>
        match cs f !! i with
        | None => f
        | Some c =>
            let to c' := set_cs f (<[i := c']> (cs f)) in
            match c_at c with
            | AtLookup =>
                if known f then to (goto c AtSend)
                else if inits c then to (goto c AtInit) else to (recv n c (no_queue c))
            | AtInit =>
                if aj_up f
                then Front (q f) (known f) (begun f) (q_box f) true (aj_box f ++ [i])
                       (<[i := goto c InitSent]> (cs f)) (trace f)
                else to (goto c (Returned (RUnit (Err EMailbox)) n))
            | AtSend =>
                if mailbox_open f
                then Front (q f) (known f) (begun f) (q_box f ++ [i]) (aj_up f) (aj_box f)
                       (<[i := goto c MsgSent]> (cs f)) (trace f)
                else to (recv n c (dead_response (msg_of c)))
            | _ => f
            end
        end
    | FAj =>
        match aj_box f with
        | [] => f
        | i :: box =>
            match cs f !! i with
            | Some c =>
                match c_at c with
                | AtSpawn =>
                    Front (q f) (known f) (begun f) (q_box f) (aj_up f) box
                      (<[i := goto c AtLookup]> (cs f)) (trace f)
                | InitSent =>
                    if known f
                    then aj_gone f
                    else Front (q f) true false (q_box f) (aj_up f) box
                           (<[i := goto c AtSend]> (cs f)) (trace f)
                | _ => Front (q f) (known f) (begun f) (q_box f) (aj_up f) box (cs f) (trace f)
                end
            | None => Front (q f) (known f) (begun f) (q_box f) (aj_up f) box (cs f) (trace f)
            end
        end
    | FAjGone => aj_gone f
    | FBegin => if known f && negb (begun f) then queue_step f None (q_box f) EvStart else f
    | FHandle =>
        match q_box f with
        | i :: box =>
            match cs f !! i with
            | Some c => if begun f && alive (q f) then queue_step f (Some i) box (msg_of c) else f
            | None => f
            end
        | [] => f
        end
    | FOwn e => if begun f && alive (q f) && own_event e then queue_step f None (q_box f) e else f
    | FCrash => process_dies f EvCrash
    | FCrashIn o k =>
        match o with
        | Some e => if own_event e || negb (begun f) && known f && match e with EvStart => true | _ => false end
                    then process_dies f (EvCrashIn e k) else f
        | None =>
            match q_box f with
            | i :: _ => match cs f !! i with
                        | Some c => if begun f then process_dies f (EvCrashIn (msg_of c) k) else f
                        | None => f
                        end
            | [] => f
            end
        end
    end.
  Definition front_run (f : front) (fs : list fevent) : front := fold_left fstep fs f.
End client.
Arguments call M : clear implicits.
Arguments cstate M : clear implicits.
Arguments place M : clear implicits.
Arguments fevent M : clear implicits.
Arguments front M W : clear implicits.
