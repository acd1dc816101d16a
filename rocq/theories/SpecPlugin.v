(** Specifications for the plugin properties. *)
From Verif Require Export Spec Plugin.

(** Observations about message number n. *)
Definition is_about (n : nat) (o : obs) : Prop :=
  match o with OSend k _ | OHandle k _ _ | OCall k _ _ | OEnd k _ => k = n | _ => False end.
Global Instance is_about_dec n o : Decision (is_about n o).
Proof. destruct o; cbn; apply _. Defined.
Definition about (n : nat) (tr : list obs) : list obs := filter (is_about n) tr.

(** The plugins registered in the process that is running, in order of registration. *)
Definition registered (tr : list obs) : list plugin :=
  fold_left (λ ps o, match o with OReg p => ps ++ [p] | OCrash => [] | _ => ps end) tr [].

(** A plugin is meant for the job type: it was registered for all types or for this one. *)
Definition meant_for (ty : nat) (p : plugin) : Prop := pl_types p = [] ∨ ty ∈ pl_types p.
Global Instance meant_for_dec ty p : Decision (meant_for ty p).
Proof. unfold meant_for. apply _. Defined.

(** The call that a message asks for. *)
Inductive asks : msg → call → Prop :=
  | asks_status id s : asks (ChangeStatus id s) (CallStatus id s)
  | asks_before id : asks (RunHook id true) (CallBefore id)
  | asks_after id : asks (RunHook id false) (CallAfter id).

(** Call these plugins, one after the other. *)
Definition calls_to (n : nat) (c : call) (ps : list plugin) : list obs := map (λ p, OCall n p c) ps.

(** The possible lives of message number n: not sent; sent; taken from the mailbox with the plugins
    [ps] and the call made to some of those it is meant for; ended after all of them were called;
    ended because the plugin called last panicked. *)
Inductive story (n : nat) : list obs → Prop :=
  | st_none : story n []
  | st_sent tm : story n [OSend n tm]
  | st_handled m c ty ps called todo :
      asks m c → filter (meant_for ty) ps = called ++ todo →
      story n (OSend n (ty, m) :: OHandle n ty ps :: calls_to n c called)
  | st_ended m c ty ps :
      asks m c →
      story n (OSend n (ty, m) :: OHandle n ty ps :: calls_to n c (filter (meant_for ty) ps) ++ [OEnd n false])
  | st_panicked m c ty ps called p todo :
      asks m c → filter (meant_for ty) ps = called ++ p :: todo →
      story n (OSend n (ty, m) :: OHandle n ty ps :: calls_to n c (called ++ [p]) ++ [OEnd n true]).

(** The numbers of the messages that executions waited for. *)
Definition waited (tr : list obs) : list nat :=
  omap (λ o, match o with OStart n _ => Some n | _ => None end) tr.

(** The calls made to a plugin. *)
Definition calls_of (p : plugin) (tr : list obs) : list (nat * call) :=
  omap (λ o, match o with OCall n p' c => if decide (p' = p) then Some (n, c) else None | _ => None end) tr.

(** The messages sent, with their numbers. *)
Definition sends (tr : list obs) : list (nat * msg) :=
  omap (λ o, match o with OSend n tm => Some (n, tm.2) | _ => None end) tr.

(** The statuses of an id that a list of calls reports. *)
Definition reported (id : string) (l : list (nat * call)) : list status :=
  omap (λ nc, match nc.2 with CallStatus k s => if String.eqb k id then Some s else None | _ => None end) l.

(** Statuses notified for an id; hook messages of an id. *)
Definition notes (id : string) (l : list msg) : list status :=
  omap (λ m, match m with ChangeStatus k s => if String.eqb k id then Some s else None | _ => None end) l.
Definition hooks (id : string) (l : list msg) : list bool :=
  omap (λ m, match m with RunHook k b => if String.eqb k id then Some b else None | _ => None end) l.

Section plugin_spec.
  Context {M : Type} `{SM : Serde M}.
  Context (prof : profile).
  Context (sched : string → option (time → option time)).
  Context (name : string).
  Context (clock : nat → time).

  (** The sequence of statuses an id goes through, from a state along a history. *)
  Fixpoint status_path (id : string) (s : sys world M) (es : list (event M)) : list status :=
    match es with
    | [] => []
    | e :: es' =>
        let s' := (sys_step prof sched name (mem_h clock) s e).1 in
        (if decide (status_of s' id = status_of s id) then [] else option_list (status_of s' id))
        ++ status_path id s' es'
    end.

  (** The events that the queue handled in a history with the plugin centre: all but the polls of
      tasks that wait for an answer. *)
  Fixpoint queue_events (ty : nat) (s : psys M) (es : list (pevent M)) : list (event M) :=
    match es with
    | [] => []
    | e :: es' =>
        match e with PEv e' => if blocked s e' then [] else [e'] | _ => [] end
        ++ queue_events ty (psys_step prof sched name clock ty s e) es'
    end.

  (** The process does not die; no other queue sends messages. *)
  Definition one_process (e : pevent M) : Prop :=
    match e with PEv EvCrash | PEv (EvCrashIn _ _) => False | _ => True end.
  Definition one_queue (e : pevent M) : Prop := match e with POther _ _ => False | _ => True end.
  (** Other queues are like this one. *)
  Definition no_after_message (e : pevent M) : Prop :=
    match e with POther _ (RunHook _ b) => b = true | _ => True end.

  Definition pafter (ty : nat) (es : list (pevent M)) : psys M :=
    psys_run prof sched name clock ty psys_init es.
End plugin_spec.

(** What was observed since the process died last. *)
Definition lately (tr : list obs) : list obs :=
  fold_left (λ l o, match o with OCrash => [] | _ => l ++ [o] end) tr [].
(** Message n has been answered. *)
Definition ended (n : nat) (tr : list obs) : Prop := ∃ b, OEnd n b ∈ tr.
(** An execution that has sent a message and waits for the answer: the one before user code, or the one
    after it. *)
Definition waiting {M} (t : task M) : Prop := t_phase t = Hooked ∨ t_phase t = AfterHook.
(** Steps of the centre. *)
Definition of_centre {M} (e : pevent M) : Prop := match e with PHandle | PPoll _ _ => True | _ => False end.

(** *** Traces of effects *)

(** What a program did, backend calls with their success, and messages. *)
Inductive act :=
  | AUpsert (key : string) (v : value) (ok : bool)
  | ASend (m : msg)
  | AOther.
Definition act_of {X : Set} (e : eff X) : X → act :=
  match e in eff X return X → act with
  | SUpsert _ k v => λ r, AUpsert k v (match r with Ok _ => true | Err _ => false end)
  | Send m => λ _, ASend m
  | _ => λ _, AOther
  end.
(** Any backend, with a record of what was done. *)
Definition traced {W} (h : handler W) : handler (W * list act) := λ X e wt,
  let (w', x) := h X e wt.1 in ((w', wt.2 ++ [act_of e x]), x).
