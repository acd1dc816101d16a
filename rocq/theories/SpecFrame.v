(** Which jobs an event is about, and what the other jobs see of it. *)
From Verif Require Export Spec.

Section frame.
  Context {M : Type} `{SM : Serde M}.

  (** The ids an event is about: the one it names, that of the job stored under it (the same in every history),
      those of the task it polls.  A tick and a start are about all jobs. *)
  Fixpoint about (w : world) (ts : list (task M)) (e : event M) : list string :=
    match e with
    | EvEnqueue j _ => [jid j]
    | EvGet id => []
    | EvCancel id | EvRetry id => id :: match @stored M SM w id with Some j => [jid j] | None => [] end
    | EvTask i _ => match ts !! i with Some t => [jid (t_orig t); jid (t_job t)] | None => [] end
    | EvCrashIn e' _ => about w ts e'
    | _ => []
    end.
  Fixpoint about_all (e : event M) : bool :=
    match e with EvTick | EvStart => true | EvCrashIn e' _ => about_all e' | _ => false end.

  (** The same, and what it looks at. *)
  Fixpoint concerns (w : world) (ts : list (task M)) (e : event M) : list string :=
    match e with EvGet id => [id] | EvCrashIn e' _ => concerns w ts e' | _ => about w ts e end.

  (** Nothing has happened to jobs other than [ids]: their records are the same, and so are the lists
      but for occurrences of [ids]. *)
  Definition others_same (ids : list string) (w w' : world) : Prop :=
    (∀ hash id, id ∉ ids → mem_sget (st w') hash id = mem_sget (st w) hash id) ∧
    (∀ q, filter (λ x, x ∉ ids) (default [] (queues (st w') !! q)) =
          filter (λ x, x ∉ ids) (default [] (queues (st w) !! q))).
  (** The ids events name themselves. *)
  Fixpoint named (e : event M) : list string :=
    match e with
    | EvEnqueue j _ => [jid j]
    | EvCancel id | EvRetry id => [id]
    | EvCrashIn e' _ => named e'
    | _ => []
    end.

  (** Two events that have nothing to do with each other.  (Two steps of tasks are taken apart below.) *)
  Definition separate (w : world) (ts : list (task M)) (e1 e2 : event M) : Prop :=
    (∀ id, id ∈ concerns w ts e1 → id ∉ concerns w ts e2) ∧
    match e1, e2 with EvConfig c1, EvConfig c2 => c1 = c2 | EvTask _ _, EvTask _ _ => False | _, _ => True end.
  (** The same up to the order of ids in lists and of messages to plugins. *)
  Definition same_but_order (s1 s2 : sys world M) : Prop :=
    (∀ hash id, mem_sget (st (sw s1)) hash id = mem_sget (st (sw s2)) hash id) ∧
    (∀ q, default [] (queues (st (sw s1)) !! q) ≡ₚ default [] (queues (st (sw s2)) !! q)) ∧
    log (sw s1) ≡ₚ log (sw s2) ∧ reads (sw s1) = reads (sw s2) ∧
    cfg s1 = cfg s2 ∧ tasks s1 = tasks s2 ∧ alive s1 = alive s2 ∧ runs s1 ≡ₚ runs s2.
End frame.
