(** Specifications for several queues on one backend. *)
From Verif Require Export Spec Multi.

(** The list with a name. *)
Definition items (s : store) (list_name : string) : list string := default [] (queues s !! list_name).

(** A thread that runs alone, for n effects; to the end. *)
Fixpoint solo (n : nat) (t : thread) (s : store) : thread * store :=
  match n with
  | O => (t, s)
  | S n' => let (t', s') := thread_step t s in solo n' t' s'
  end.
(** How often the schedule lets thread i act. *)
Definition turns (i : nat) (schedule : list nat) : nat := length (filter (λ j, j = i) schedule).
Definition ended (t : thread) : Prop := match th_prog t with Eff _ _ => False | _ => True end.

(** A queue with its job type, name, clock, history, and the ids of its jobs. *)
Record queue_spec := QSpec {
  q_type : Type;
  q_serde : Serde q_type;
  q_name : string;
  q_clock : nat → time;
  q_events : list (event q_type);
  q_ids : string → Prop;
}.

(** The history only names ids of the queue. *)
Fixpoint names_only {M} (K : string → Prop) (e : event M) : Prop :=
  match e with
  | EvEnqueue j _ => K (jid j)
  | EvCancel id | EvGet id | EvRetry id => K id
  | EvCrashIn e' _ => names_only K e'
  | _ => True
  end.

Section multi_spec.
  Context (prof : profile).
  Context (sched : string → option (time → option time)).

  Definition thread_of (q : queue_spec) : thread :=
    let _ := q_serde q in
    Thread _ (hist_prog prof sched (q_name q) (sys_init tt) (q_events q)) (q_clock q) 0 [].

  (** What the queue has in a store: its lists, the records of its jobs. *)
  Definition same_view (q : queue_spec) (s s' : store) : Prop :=
    (∀ st, items s (format_queue_name (q_name q) st) = items s' (format_queue_name (q_name q) st)) ∧
    (∀ id, q_ids q id → mem_sget s STORAGE_HASH id = mem_sget s' STORAGE_HASH id).
  (** A store left by earlier runs of the queue: its lists contain ids of the queue, and a record
      under such an id, if the queue can read it, has such an id. *)
  Definition clean (q : queue_spec) (s : store) : Prop :=
    let _ := q_serde q in
    (∀ st id, id ∈ items s (format_queue_name (q_name q) st) → q_ids q id) ∧
    (∀ id js (j : job (q_type q)), q_ids q id →
       mem_sget s STORAGE_HASH id = Some (Some js) → dec_job js = Some j → q_ids q (jid j)).
  Definition queue_ok (s : store) (q : queue_spec) : Prop :=
    Forall (names_only (q_ids q)) (q_events q) ∧ clean q s.
  (** Different names, no common ids. *)
  Definition apart (q q' : queue_spec) : Prop :=
    q_name q ≠ q_name q' ∧ ∀ id, q_ids q id → q_ids q' id → False.
End multi_spec.
