(** First use of a job type (aj.rs:34-47, 110-158, 230-312; lib.rs:33-59) and AJ::start
    (aj.rs:49-104), with any number of callers on any threads.  Addresses are numbers, job types are
    numbers (TypeId). *)
From Verif Require Export Types.

(** ** Registration of queues *)

(** A call of [run] (aj.rs:230-239, 137-158) by some thread, or the future a JustRunJob message
    spawned on the AJ actor (aj.rs:304-311). *)
Record call := Call { c_type : nat; c_name : string; c_spawned : bool }.
Inductive call_state :=
  | CLook                     (* before get_work_queue_address, aj.rs:146 *)
  | CInit                     (* found none, before aj_addr.send(InitWorkQueue), aj.rs:148-155 *)
  | CWait                     (* waits for the answer, aj.rs:155 *)
  | CGot (addr : nat)         (* has the queue's address, before enqueue_job, aj.rs:157 *)
  | CSent (addr : nat)        (* gave the job to the queue; what the queue does is in Queue.v *)
  | CFailed                   (* Err(MailboxError), aj.rs:155 *)
  | CDropped.                 (* the future was dropped together with the AJ actor *)

(** Messages of the AJ actor: InitWorkQueue of the i-th call, JustRunJob. *)
Inductive aj_msg := MInit (i : nat) | MJust (ty : nat) (name : string).

(** The process: QUEUE_REGISTRY (aj.rs:20-32; the address is in both maps), the number of queues
    started, the AJ actor (started, aj.rs:66-104) and its mailbox, the calls so far. *)
Record reg := Reg {
  by_type : gmap nat nat;
  by_name : gmap string nat;
  started : list (nat * string);      (* the a-th queue started has address a *)
  aj_alive : bool;
  inbox : list aj_msg;
  calls : list (call * call_state);
}.
Definition reg_init : reg := Reg ∅ ∅ [] true [] [].

Inductive reg_event :=
  | RRun (ty : nat) (name : string)      (* some thread calls run() *)
  | RJust (ty : nat) (name : string)     (* some thread calls just_run() *)
  | RStep (i : nat)                      (* the i-th call proceeds *)
  | RHandle.                             (* AJ handles its next message *)

Definition set_call (s : reg) (i : nat) (c : call) (x : call_state) : reg :=
  Reg (by_type s) (by_name s) (started s) (aj_alive s) (inbox s) (<[i := (c, x)]> (calls s)).
Definition add_call (s : reg) (c : call) : reg :=
  Reg (by_type s) (by_name s) (started s) (aj_alive s) (inbox s) (calls s ++ [(c, CLook)]).

(** A panic in a handler ends the actor: its mailbox is closed (waiting senders get MailboxError) and
    the futures spawned on it are dropped (actix Context).  AJ_ADDR still has its address. *)
Definition lose (p : call * call_state) : call * call_state :=
  match p with
  | (c, CSent a) => (c, CSent a)
  | (c, CFailed) => (c, CFailed)
  | (c, x) =>
      if c_spawned c then (c, CDropped)
      else match x with CWait => (c, CFailed) | _ => (c, x) end
  end.
Definition aj_panic (s : reg) : reg :=
  Reg (by_type s) (by_name s) (started s) false [] (lose <$> calls s).

(** aj.rs:110-135: AJ::register, panics if the name or the type is known; handler aj.rs:273-283.  AJ is
    the only one who writes the registry, others only read [by_type]: it is one step. *)
Definition register (s : reg) (i : nat) (c : call) : reg :=
  match by_name s !! c_name c, by_type s !! c_type c with
  | None, None =>
      let a := length (started s) in
      Reg (<[c_type c := a]> (by_type s)) (<[c_name c := a]> (by_name s))
          (started s ++ [(c_type c, c_name c)]) (aj_alive s) (inbox s) (<[i := (c, CGot a)]> (calls s))
  | _, _ => aj_panic s
  end.

Definition reg_step (s : reg) (e : reg_event) : reg :=
  match e with
  | RRun ty name => add_call s (Call ty name false)
  | RJust ty name =>
      (* lib.rs:51-58: do_send to a dead actor is lost *)
      if aj_alive s
      then Reg (by_type s) (by_name s) (started s) true (inbox s ++ [MJust ty name]) (calls s)
      else s
  | RStep i =>
      match calls s !! i with
      | Some (c, CLook) =>
          match by_type s !! c_type c with
          | Some a => set_call s i c (CGot a)
          | None => set_call s i c CInit
          end
      | Some (c, CInit) =>
          if aj_alive s
          then Reg (by_type s) (by_name s) (started s) true (inbox s ++ [MInit i]) (<[i := (c, CWait)]> (calls s))
          else set_call s i c CFailed
      | Some (c, CGot a) => set_call s i c (CSent a)
      | _ => s
      end
  | RHandle =>
      if aj_alive s then
        match inbox s with
        | [] => s
        | m :: rest =>
            let s' := Reg (by_type s) (by_name s) (started s) true rest (calls s) in
            match m with
            | MJust ty name => add_call s' (Call ty name true)
            | MInit i =>
                match calls s !! i with
                | Some (c, CWait) => register s' i c
                | _ => s'
                end
            end
        end
      else s
  end.
Definition reg_run (s : reg) (es : list reg_event) : reg := fold_left reg_step es s.

(** ** AJ::start *)

(** A call of AJ::start (quick_start, aj.rs:106-108, is AJ::start with the in-memory backend), or of get_aj_address from elsewhere (aj.rs:154, lib.rs:52). *)
Inductive start_state :=
  | SFirst                    (* before try_read in aj.rs:50, called in aj.rs:68 *)
  | SFirstHeld                (* holds the read lock, aj.rs:51 *)
  | SCreate                   (* no address: before register_addr, aj.rs:73-88 *)
  | SCreated (a : nat)        (* started an AJ actor, before try_write, aj.rs:99 *)
  | SWriting (a : nat)        (* holds the write lock, aj.rs:100 *)
  | SSecond                   (* before try_read, called in aj.rs:90 *)
  | SSecondHeld               (* holds the read lock *)
  | SReturned (a : nat)
  | SPanicked                 (* `expect`, aj.rs:90 *)
  | GFirst | GHeld            (* get_aj_address elsewhere *)
  | GReturned (o : option nat).

(** AJ_ADDR with its lock (aj.rs:24-26), the number of AJ actors started, the calls.  The runtime the
    actor is started in (aj.rs:73-88) is not modelled. *)
Record boot := Boot {
  slot : option nat;
  readers : nat;
  writer : bool;
  actors : nat;
  threads : list start_state;
}.
Definition boot_init : boot := Boot None 0 false 0 [].

Inductive boot_event :=
  | BStart                    (* some thread calls AJ::start *)
  | BGet                      (* some thread calls get_aj_address *)
  | BStep (i : nat).

Definition set_thread (s : boot) (i : nat) (x : start_state) : boot :=
  Boot (slot s) (readers s) (writer s) (actors s) (<[i := x]> (threads s)).
(** try_read fails iff the lock is held for writing, try_write iff it is held at all. *)
Definition take_read (s : boot) (i : nat) (x : start_state) : boot :=
  Boot (slot s) (S (readers s)) (writer s) (actors s) (<[i := x]> (threads s)).
Definition drop_read (s : boot) (i : nat) (x : start_state) : boot :=
  Boot (slot s) (pred (readers s)) (writer s) (actors s) (<[i := x]> (threads s)).

Definition boot_step (s : boot) (e : boot_event) : boot :=
  match e with
  | BStart => Boot (slot s) (readers s) (writer s) (actors s) (threads s ++ [SFirst])
  | BGet => Boot (slot s) (readers s) (writer s) (actors s) (threads s ++ [GFirst])
  | BStep i =>
      match threads s !! i with
      | Some SFirst => if writer s then set_thread s i SCreate else take_read s i SFirstHeld
      | Some SFirstHeld =>
          drop_read s i (match slot s with Some a => SReturned a | None => SCreate end)
      | Some SCreate =>
          Boot (slot s) (readers s) (writer s) (S (actors s)) (<[i := SCreated (actors s)]> (threads s))
      | Some (SCreated a) =>
          if writer s || negb (Nat.eqb (readers s) 0) then set_thread s i SSecond
          else Boot (slot s) (readers s) true (actors s) (<[i := SWriting a]> (threads s))
      | Some (SWriting a) =>
          Boot (Some a) (readers s) false (actors s) (<[i := SSecond]> (threads s))
      | Some SSecond => if writer s then set_thread s i SPanicked else take_read s i SSecondHeld
      | Some SSecondHeld =>
          drop_read s i (match slot s with Some a => SReturned a | None => SPanicked end)
      | Some GFirst => if writer s then set_thread s i (GReturned None) else take_read s i GHeld
      | Some GHeld => drop_read s i (GReturned (slot s))
      | _ => s
      end
  end.
Definition boot_run (s : boot) (es : list boot_event) : boot := fold_left boot_step es s.
