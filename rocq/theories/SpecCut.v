(** What is left in the storage when a step is cut off somewhere: the table of its writes, in order. *)
From Verif Require Export SpecStray SpecAny.

(** A write, as the lists and the records show it. *)
Inductive change (M : Type) :=
  | Adds (s : status) (id : string)    (* [id] in front of a list *)
  | Takes (s : status) (id : string)   (* [id] off a list *)
  | Writes (j : job M)                 (* the record of [j] *)
  | Turns (id : string)                (* [id], waiting longest, to the other end of the waiting list *)
  | Moves (id : string).               (* [id], waiting longest, to the list of picked jobs *)
Arguments Adds {M} _ _.
Arguments Takes {M} _ _.
Arguments Writes {M} _.
Arguments Turns {M} _.
Arguments Moves {M} _.

Section cut.
  Context {M : Type} `{SM : Serde M}.
  Context (sched : string → option (time → option time)).
  Context (name : string).
  Context (clock : nat → time).
  Notation qlist := (qlist name).
  Notation stored := (stored (M := M)).

  Definition same_lists (w w' : world) : Prop := ∀ s, qlist w' s = qlist w s.
  Definition same_records (w w' : world) : Prop := ∀ k, stored w' k = stored w k.
  (** The world shows the change. *)
  Definition made (c : change M) (w w' : world) : Prop :=
    match c with
    | Adds s id =>
        qlist w' s = id :: qlist w s ∧ (∀ s', s' ≠ s → qlist w' s' = qlist w s') ∧ same_records w w'
    | Takes s id =>
        qlist w' s = filter (λ y, y ≠ id) (qlist w s) ∧ (∀ s', s' ≠ s → qlist w' s' = qlist w s') ∧
        same_records w w'
    | Writes j =>
        same_lists w w' ∧ (∃ j', read_back j j' ∧ stored w' (jid j) = Some j') ∧
        ∀ k, k ≠ jid j → stored w' k = stored w k
    | Turns id =>
        (∃ l, qlist w Queued = l ++ [id] ∧ qlist w' Queued = id :: l) ∧
        (∀ s', s' ≠ Queued → qlist w' s' = qlist w s') ∧ same_records w w'
    | Moves id =>
        (∃ l, qlist w Queued = l ++ [id] ∧ qlist w' Queued = l) ∧ qlist w' Running = id :: qlist w Running ∧
        (∀ s', s' ≠ Queued → s' ≠ Running → qlist w' s' = qlist w s') ∧ same_records w w'
    end.
  (** One change after the other, and nothing else. *)
  Fixpoint made_all (l : list (change M)) (w w' : world) : Prop :=
    match l with
    | [] => same_lists w w' ∧ same_records w w'
    | c :: l' => ∃ w1, made c w w1 ∧ made_all l' w1 w'
    end.

  (** The records that are written. *)
  Definition as_queued (j : job M) (t : Z) : job M := Job (set_enqueue_at (set_jstatus (ctx j) Queued) t) (data j).
  Definition as_running (j : job M) (t : Z) : job M := Job (set_run_at (set_jstatus (ctx j) Running) t) (data j).
  Definition as_canceled (j : job M) (t : Z) : job M := Job (set_cancel_at (set_jstatus (ctx j) Canceled) t) (data j).
  Definition as_settled (s : status) (j : job M) (t : Z) : job M :=
    Job (set_complete_at (set_jstatus (ctx j) s) t) (data j).

  (** Picking: the waiting list is turned, and a job that is due is first written as running, then
      moved. *)
  Inductive picking : world → list (change M) → Prop :=
    | pk_end w : picking w []
    | pk_turn w w' id l : made (Turns id) w w' → picking w' l → picking w (Turns id :: l)
    | pk_pick w w1 w2 id j k t l :
        stored w id = Some j → (reads w <= k)%nat → due j (clock k) → t = clock (S k) / 1000000 →
        made (Writes (as_running j t)) w w1 → made (Moves id) w1 w2 → picking w2 l →
        picking w (Writes (as_running j t) :: Moves id :: l).

  (** The writes of a step. *)
  Inductive writes (s : sys world M) : event M → list (change M) → Prop :=
    | ws_new j c t :
        t = clock (reads (sw s)) / 1000000 →
        stored (sw s) (jid j) = None → writes s (EvEnqueue j c) [Adds Queued (jid j); Writes (as_queued j t)]
    | ws_known j c ex t :
        t = clock (reads (sw s)) / 1000000 →
        stored (sw s) (jid j) = Some ex →
        writes s (EvEnqueue j c)
          ((if override_data c && bool_decide (jstatus (ctx ex) ≠ Running) then [Writes j] else []) ++
           (if re_run c && bool_decide (done_status (jstatus (ctx ex)))
            then [Adds Queued (jid j); Writes (as_queued j t)] else []))
    | ws_cancel id j t :
        t = clock (reads (sw s)) / 1000000 →
        stored (sw s) id = Some j → jstatus (ctx j) = Queued →
        writes s (EvCancel id) [Writes (as_canceled j t); Takes Queued id]
    | ws_cancel_no id :
        (∀ j, stored (sw s) id = Some j → jstatus (ctx j) ≠ Queued) → writes s (EvCancel id) []
    | ws_retry id j t :
        t = clock (reads (sw s)) / 1000000 →
        stored (sw s) id = Some j → done_status (jstatus (ctx j)) →
        writes s (EvRetry id) [Takes (jstatus (ctx j)) id; Writes (as_queued j t); Adds Queued id]
    | ws_retry_no id :
        (∀ j, stored (sw s) id = Some j → ¬ done_status (jstatus (ctx j))) → writes s (EvRetry id) []
    | ws_get id : writes s (EvGet id) []
    | ws_config c : writes s (EvConfig c) []
    | ws_tick l : picking (sw s) l → writes s EvTick l
    | ws_poll i u :
        (∀ t, tasks s !! i = Some t → t_phase t ≠ AfterHook) → writes s (EvTask i u) []
    | ws_again i u orig j nj k t :
        (reads (sw s) <= k)%nat → t = clock k / 1000000 →
        tasks s !! i = Some (Task orig j AfterHook) →
        goes_on sched (clock (reads (sw s))) (clock (S (reads (sw s)))) j u nj →
        writes s (EvTask i u) [Takes Running (jid j); Writes (as_queued nj t); Adds Queued (jid j)]
    | ws_finished i u orig j jr k t :
        (reads (sw s) <= k)%nat → t = clock k / 1000000 →
        tasks s !! i = Some (Task orig j AfterHook) →
        ends sched (clock (reads (sw s))) j u jr → ur_failed u = false →
        writes s (EvTask i u) [Takes Running (jid j); Writes (as_settled Finished jr t); Adds Finished (jid j)]
    | ws_failed i u orig j jr k t :
        (reads (sw s) <= k)%nat → t = clock k / 1000000 →
        tasks s !! i = Some (Task orig j AfterHook) →
        ends sched (clock (reads (sw s))) j u jr → ur_failed u = true →
        writes s (EvTask i u) [Writes (as_settled Failed jr t); Takes Running (jid j); Adds Failed (jid j)].

  (** The numbers at the end of an execution are in range. *)
  Definition numbers_fit (s : sys world M) (e : event M) : Prop :=
    ∀ i u orig j, e = EvTask i u → tasks s !! i = Some (Task orig j AfterHook) →
      in_range (clock (reads (sw s))) j.
End cut.
