(** What callers can rely on. *)
From Verif Require Export Spec Client.

Section spec.
  Context {M : Type} `{SM : Serde M}.

  (** The steps of the queue caused by the i-th call: when, which message, which answer. *)
  Fixpoint steps_from (k : nat) (tr : list (option nat * event M * response M)) (i : nat)
      : list (nat * event M * response M) :=
    match tr with
    | [] => []
    | (o, e, r) :: tr' => (if decide (o = Some i) then [(k, e, r)] else []) ++ steps_from (S k) tr' i
    end.
  Definition steps_of (i : nat) (tr : list (option nat * event M * response M)) := steps_from 0 tr i.

  (** The message of a call with a single message. *)
  Definition request (c : call M) : event M :=
    match c with
    | CRun j ec => EvEnqueue j ec
    | CJust j => EvEnqueue j (EnqueueConfig true true)
    | CCancel id => EvCancel id
    | CGet id | CUpdate id _ _ => EvGet id
    | CRetry id => EvRetry id
    | CConfig cf => EvConfig cf
    end.
  (** Answers to calls that did not reach a living queue. *)
  Definition refusal (c : call M) (r : response M) : Prop :=
    match c with
    | CRun _ _ | CJust _ => r = RUnit (Err EMailbox)
    | CCancel _ | CConfig _ => r = RUnit (Err EMailbox) ∨ r = RUnit (Err ENoQueueRegister)
    | CGet _ => r = RJob None
    | CUpdate _ _ _ => r = RUnit (Ok tt)
    | CRetry _ => r = RBool (Err EMailbox) ∨ r = RBool (Err ENoQueueRegister)
    end.

  (** update_job sends two messages, all others one: the steps fit the call, and are later than
      queue step [from]. *)
  Definition fits (c : call M) (from : nat) (l : list (nat * event M * response M)) : Prop :=
    l = [] ∨
    (∃ k x, l = [(k, request c, x)] ∧ (from <= k)%nat) ∨
    (∃ id d cx k1 j k2 x, c = CUpdate id d cx ∧
       l = [(k1, EvGet id, RJob (Some j));
            (k2, EvEnqueue (Job (default (ctx j) cx) d) (EnqueueConfig true true), x)] ∧
       (from <= k1 < k2)%nat).

  (** The call got answer [r] before queue step [to]. *)
  Definition explained (c : call M) (from to : nat) (r : response M)
      (l : list (nat * event M * response M)) : Prop :=
    match c with
    | CUpdate id d cx =>
        (* nothing there to update *)
        (l = [] ∧ r = RUnit (Ok tt)) ∨
        (∃ k x, l = [(k, EvGet id, x)] ∧ (from <= k < to)%nat ∧ (∀ j, x ≠ RJob (Some j)) ∧ r = RUnit (Ok tt)) ∨
        (* the queue was gone when the change was to be sent *)
        (∃ k j, l = [(k, EvGet id, RJob (Some j))] ∧ (from <= k < to)%nat ∧ r = RUnit (Err EMailbox)) ∨
        (∃ k1 j k2 x,
           l = [(k1, EvGet id, RJob (Some j));
                (k2, EvEnqueue (Job (default (ctx j) cx) d) (EnqueueConfig true true), x)] ∧
           (from <= k1 < k2)%nat ∧ (k2 < to)%nat ∧ (r = x ∨ x = RNone ∧ r = RUnit (Err EMailbox)))
    | _ =>
        (l = [] ∧ refusal c r) ∨
        (∃ k x, l = [(k, request c, x)] ∧ (from <= k < to)%nat ∧ (r = x ∨ x = RNone ∧ refusal c r))
    end.

  (** Messages that the call may send. *)
  Definition may_send (c : call M) (e : event M) : Prop :=
    e = request c ∨
    ∃ id d cx (j : job M), c = CUpdate id d cx ∧ e = EvEnqueue (Job (default (ctx j) cx) d) (EnqueueConfig true true).
  (** What the queue and its process do without being called, when [made] are the calls so far.  The process
      may die while the queue handles a call. *)
  Definition by_itself (made : list (call M)) (e : event M) : Prop :=
    match e with
    | EvTick | EvTask _ _ | EvPanic | EvStart | EvCrash => True
    | EvCrashIn (EvTick | EvTask _ _ | EvPanic | EvStart) _ => True
    | EvCrashIn e' _ => ∃ c, c ∈ made ∧ may_send c e'
    | _ => False
    end.
  Definition submits_call (c : call M) : bool := match c with CRun _ _ | CJust _ => true | _ => false end.
  (** Threads that are in a call go on, AJ and the queue read their mailboxes, and nothing else. *)
  Definition serves (fe : fevent M) : Prop :=
    match fe with FGo _ | FAj | FBegin | FHandle => True | _ => False end.
End spec.

(** A process that has just been started. *)
Definition just_started {M} `{SM : Serde M} prof sched name {W} (h : handler W) (f : front M W) : Prop :=
  (∃ w, f = front_init w) ∨ ∃ f0, f = fstep prof sched name h f0 FCrash.
