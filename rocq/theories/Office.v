(** A process with any number of job types: AJ with its registry and mailbox, the queues of the job types,
    each on its own thread (queue.rs:105-113, one Arbiter each), all on one backend (aj.rs:123), and the
    callers of all of them (Client.v).  The steps of different queues overlap: what is atomic is one call of
    the backend, one reading of the clock or one message to the plugins (mem.rs holds its mutex for the
    whole call).  [T]: the job types (TypeId), [M t]: the payload of type [t], [name t]: its queue name;
    [clock t]: what the thread of the queue reads. *)
From Verif Require Export Client Multi.

(** A queue in a world. *)
Definition with_world {W M} (s : sys unit M) (w : W) : sys W M := Sys w (cfg s) (tasks s) (alive s) (runs s).

Section office.
  Context {T : Type} {TD : EqDecision T}.
  Context (M : T → Type) {SM : ∀ t, Serde (M t)}.
  Context (prof : profile).
  Context (sched : string → option (time → option time)).
  Context (name : T → string).
  Context (clock : T → nat → time).

  (** The step a queue is making: the call whose message it handles, the event, the number of effects made
      so far, and what is left to do. *)
  Record busy (t : T) := Busy {
    b_call : option nat;
    b_event : event (M t);
    b_made : nat;
    b_rest : prog (sys unit (M t) * response (M t));
  }.
  Arguments Busy {t} _ _ _ _.
  (** One job type: its queue (own state, readings of the clock, messages sent, the step it is making) and
      its callers, as in Client.v.  A message that is being handled stays at the head of [d_box]. *)
  Record desk (t : T) := Desk {
    d_q : sys unit (M t);
    d_reads : nat;
    d_log : list msg;
    d_busy : option (busy t);
    d_known : bool;
    d_begun : bool;
    d_box : list nat;
    d_cs : list (cstate (M t));
    d_trace : list (option nat * event (M t) * response (M t));
  }.
  Arguments Desk {t} _ _ _ _ _ _ _ _ _.
  Arguments d_q {t} _.
  Arguments d_reads {t} _.
  Arguments d_log {t} _.
  Arguments d_busy {t} _.
  Arguments d_known {t} _.
  Arguments d_begun {t} _.
  Arguments d_box {t} _.
  Arguments d_cs {t} _.
  Arguments d_trace {t} _.

  (** The process.  AJ has one mailbox for all types (type, number of the call); [o_names] are the keys of
      registry_by_name (aj.rs:31). *)
  Record office := Office {
    desks : ∀ t, desk t;
    o_up : bool;
    o_box : list (T * nat);
    o_names : list string;
    o_store : store;
  }.
  Definition office_init (s : store) : office :=
    Office (λ t, Desk (sys_init tt) 0 [] None false false [] [] []) true [] [] s.

  Definition set_desk (ds : ∀ t, desk t) (t : T) (d : desk t) : ∀ t', desk t' := λ t',
    match decide (t = t') with left e => eq_rect t desk d t' e | right _ => ds t' end.

  (** What concerns one type, as a process of Client.v. *)
  Definition own_part (t : T) (box : list (T * nat)) : list nat :=
    omap (λ p : T * nat, if decide (p.1 = t) then Some p.2 else None) box.
  Definition view (o : office) (t : T) : front (M t) world :=
    let d := desks o t in
    Client.Front (with_world (d_q d) (World (o_store o) (d_reads d) (d_log d))) (d_known d) (d_begun d) (d_box d)
      (o_up o) (own_part t (o_box o)) (d_cs d) (d_trace d).
  (** The type's part becomes [f]. *)
  Definition put (o : office) (t : T) (f : front (M t) world) (b : option (busy t)) (box : list (T * nat)) : office :=
    let d := Desk (own_state (q f)) (reads (sw (q f))) (log (sw (q f))) b (known f) (begun f) (q_box f) (cs f) (trace f) in
    Office (set_desk (desks o) t d) (aj_up f) box
      (if known f && negb (d_known (desks o t)) then name t :: o_names o else o_names o) (st (sw (q f))).
  Notation fstep t := (fstep prof sched (name t) (mem_h (clock t))).

  (** A caller of type [t] acts (FCall, FGo); what it sends to AJ comes last in AJ's mailbox. *)
  Definition caller_step (o : office) (t : T) (fe : fevent (M t)) : office :=
    let f := view o t in
    let f' := fstep t f fe in
    put o t f' (d_busy (desks o t)) (o_box o ++ map (pair t) (drop (length (aj_box f)) (aj_box f'))).

  (** A panic of AJ: the callers of all types lose it. *)
  Definition all_gone (o : office) : office :=
    Office (λ t, let d := desks o t in
              Desk (d_q d) (d_reads d) (d_log d) (d_busy d) (d_known d) (d_begun d) (d_box d)
                (lose_aj (length (d_trace d)) <$> d_cs d) (d_trace d))
      false [] (o_names o) (o_store o).
  (** aj.rs:116-121: does the name of the type to be registered belong to a queue? *)
  Definition name_taken (o : office) (t : T) (i : nat) : bool :=
    match d_cs (desks o t) !! i with
    | Some c => match c_at c with InitSent => bool_decide (name t ∈ o_names o) | _ => false end
    | None => false
    end.
  (** AJ handles its next message (aj.rs:273-283, 304-311). *)
  Definition aj_step (o : office) : office :=
    match o_box o with
    | [] => o
    | (t, i) :: box =>
        let f' := fstep t (view o t) FAj in
        if name_taken o t i || negb (aj_up f') then all_gone o
        else put o t f' (d_busy (desks o t)) box
    end.

  (** A queue that is not in the middle of a step begins one. *)
  Definition set_busy (o : office) (t : T) (reads : nat) (log : list msg) (b : option (busy t)) (s : store) : office :=
    let d := desks o t in
    Office (set_desk (desks o) t
              (Desk (d_q d) reads log b (d_known d) (d_begun d) (d_box d) (d_cs d) (d_trace d)))
      (o_up o) (o_box o) (o_names o) s.
  Definition begin (o : office) (t : T) (c : option nat) (e : event (M t)) : office :=
    let d := desks o t in
    match d_busy d with
    | Some _ => o
    | None => set_busy o t (d_reads d) (d_log d)
                (Some (Busy c e 0 (step_prog prof sched (name t) (d_q d) e))) (o_store o)
    end.

  (** The process dies, each queue where it is (see EvCrashIn in Sys.v), and is started again. *)
  Definition die (t : T) (d : desk t) : desk t :=
    let s := d_q d in
    let dead := Sys tt (cfg s) [] false (runs s) in
    let (s', e) := match d_busy d with
                   | Some b => (dead, EvCrashIn (b_event t b) (b_made t b))
                   | None => (if alive s then dead else s, EvCrash)
                   end in
    Desk s' (d_reads d) (d_log d) None false false [] (lose_all <$> d_cs d) (d_trace d ++ [(None, e, RNone)]).

  Inductive oevent :=
    | OCall (t : T) (c : call (M t))     (* some thread makes a call *)
    | OGo (t : T) (i : nat)              (* the i-th call of type t proceeds *)
    | OAj                                (* AJ handles its next message *)
    | OBegin (t : T)                     (* the queue's actor begins to start, *)
    | OTake (t : T)                      (* takes its next message, *)
    | OOwn (t : T) (e : event (M t))     (* or begins a step of its own, *)
    | OEff (t : T)                       (* makes the next effect of the step *)
    | OEnd (t : T)                       (* and ends it *)
    | OCrash.                            (* the process dies *)

  Definition ostep (o : office) (oe : oevent) : office :=
    match oe with
    | OCall t c => caller_step o t (FCall c)
    | OGo t i => caller_step o t (FGo i)
    | OAj => aj_step o
    | OBegin t =>
        let d := desks o t in
        if d_known d && negb (d_begun d) then begin o t None EvStart else o
    | OTake t =>
        let d := desks o t in
        match d_box d with
        | i :: _ =>
            match d_cs d !! i with
            | Some c => if d_begun d && alive (d_q d) then begin o t (Some i) (msg_of c) else o
            | None => o
            end
        | [] => o
        end
    | OOwn t e =>
        let d := desks o t in
        if d_begun d && alive (d_q d) && own_event e then begin o t None e else o
    | OEff t =>
        let d := desks o t in
        match d_busy d with
        | Some (Busy c e n (Eff x k)) =>
            let (w, a) := mem_h (clock t) _ x (World (o_store o) (d_reads d) (d_log d)) in
            set_busy o t (reads w) (log w) (Some (Busy c e (S n) (k a))) (st w)
        | _ => o
        end
    | OEnd t =>
        let d := desks o t in
        match d_busy d with
        | Some (Busy c e n (Ret (s, r))) =>
            let f := view o t in
            let box := match c with Some _ => tail (q_box f) | None => q_box f end in
            put o t (settle f c box e (with_world s (sw (q f))) r) None (o_box o)
        | _ => o
        end
    | OCrash => Office (λ t, die t (desks o t)) true [] [] (o_store o)
    end.
  Definition office_run (o : office) (oes : list oevent) : office := fold_left ostep oes o.
End office.
Arguments Busy {T M t} _ _ _ _.
Arguments b_call {T M t} _.
Arguments b_event {T M t} _.
Arguments b_made {T M t} _.
Arguments b_rest {T M t} _.
Arguments Desk {T M t} _ _ _ _ _ _ _ _ _.
Arguments d_q {T M t} _.
Arguments d_reads {T M t} _.
Arguments d_log {T M t} _.
Arguments d_busy {T M t} _.
Arguments d_known {T M t} _.
Arguments d_begun {T M t} _.
Arguments d_box {T M t} _.
Arguments d_cs {T M t} _.
Arguments d_trace {T M t} _.
Arguments Office {T M} _ _ _ _ _.
Arguments desks {T M} _ _.
Arguments o_up {T M} _.
Arguments o_box {T M} _.
Arguments o_names {T M} _.
Arguments o_store {T M} _.
Arguments OCall {T M} _ _.
Arguments OGo {T M} _ _.
Arguments OAj {T M}.
Arguments OBegin {T M} _.
Arguments OTake {T M} _.
Arguments OOwn {T M} _ _.
Arguments OEff {T M} _.
Arguments OEnd {T M} _.
Arguments OCrash {T M}.
