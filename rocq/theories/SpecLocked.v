(** Processes on one queue of which only one at a time picks jobs. *)
From Verif Require Export Spec SpecRace.

Section spec.
  Context {M : Type} `{SM : Serde M}.
  Context (prof : nat → profile).
  Context (sched : nat → string → option (time → option time)).
  Context (name : string).
  Context (clock : nat → nat → time).
  Notation race_after := (race_after prof sched (λ _, name) clock).

  (** The process is in the middle of a tick (that of its start included), or of cancel_job. *)
  Definition picks (p : proc M) : Prop :=
    match p_now p with Some (EvTick, _) | Some (EvStart, _) => True | _ => False end.
  Definition cancelling (p : proc M) : Prop :=
    match p_now p with Some (EvCancel _, _) => True | _ => False end.
  (** As if ticks held a lock of the queue, and cancel_job could not hold it meanwhile. *)
  Definition locked (r : race M world) : Prop :=
    ∀ i k p p', r_procs r !! i = Some p → r_procs r !! k = Some p' →
      picks p → picks p' ∨ cancelling p' → i = k.
  Definition always_locked (n : nat) (xs : list (race_event M)) : Prop :=
    ∀ ys zs, xs = ys ++ zs → locked (race_after n ys).

  (** The ids submitted, in the order in which the submissions begin. *)
  Definition begun_id (x : race_event M) : option string :=
    match x with RBegin _ (EvEnqueue j _) _ => Some (jid j) | _ => None end.
  Definition begun_ids (xs : list (race_event M)) : list string := omap begun_id xs.
  Definition no_retry_job (x : race_event M) : Prop :=
    match x with RBegin _ (EvRetry _) _ => False | _ => True end.

  (** The ids of a process's tasks, without those that have finished the user's code. *)
  Definition in_work (p : proc M) : list string :=
    map tid (filter (λ t, t_phase t ≠ AfterHook) (p_tasks p)).
  Definition all_in_work (r : race M world) : list string := concat (map in_work (r_procs r)).

  (** The process has been started and has not died, or is starting. *)
  Definition up (p : proc M) : Prop := p_alive p = true ∨ p_now p ≠ None.
  (** No call fails in this event, and no process dies. *)
  Definition no_failure (r : race M world) (x : race_event M) : Prop :=
    match x with RCall _ f => f = FOk | _ => True end ∧
    ∀ i p, r_procs r !! i = Some p → up p →
      ∃ p', r_procs (race_step prof sched (λ _, name) (λ i, mem_h (clock i)) r x) !! i = Some p' ∧ up p'.

  (** *** Waiting jobs are taken *)
  (** Process i is about to count the processing jobs in a tick, and there are less than its limit. *)
  Definition free_now (r : race M world) (i : nat) : bool :=
    match r_procs r !! i with
    | Some p =>
        let free limit (c : prog (step_result (M := M))) :=
          match c with
          | Eff (QCount l) _ =>
              String.eqb l (format_queue_name name Running) && (length (qlist name (r_world r) Running) <? limit)%nat
          | _ => false
          end in
        match p_now p with
        | Some (EvTick, c) => free (max_processing_jobs (p_cfg p)) c
        | Some (EvStart, c) => free (max_processing_jobs wq_config_default) c
        | _ => false
        end
    | None => false
    end.
  (** The ticks that found a free slot and ended in this history.  [f]: the process that is in such a tick. *)
  Fixpoint ended_free_ticks (f : option nat) (r : race M world) (xs : list (race_event M)) : nat :=
    match xs with
    | [] => 0
    | x :: xs' =>
        let next f' := ended_free_ticks f' (race_step prof sched (λ _, name) (λ i, mem_h (clock i)) r x) xs' in
        match x with
        | RBegin _ _ _ => next f
        | RDie i => next (if bool_decide (f = Some i) then None else f)
        | RCall i _ =>
            if free_now r i then next (Some i)
            else if bool_decide (f = Some i) then
              match r_procs r !! i with
              | Some (Proc _ _ _ (Some (_, Ret _))) => S (next None)
              | Some (Proc _ _ _ (Some (_, Eff _ _))) => next f
              | _ => next None
              end
            else next f
        end
    end.
  (** How many ids come into the waiting list. *)
  Fixpoint came (r : race M world) (xs : list (race_event M)) : nat :=
    match xs with
    | [] => 0
    | x :: xs' =>
        let r' := race_step prof sched (λ _, name) (λ i, mem_h (clock i)) r x in
        (length (qlist name (r_world r') Queued) - length (qlist name (r_world r) Queued)) + came r' xs'
    end%nat.
  (** No call fails in a tick. *)
  Definition ticks_ok (r : race M world) (x : race_event M) : Prop :=
    match x with RCall i f => f = FOk ∨ ∀ p, r_procs r !! i = Some p → ¬ picks p | _ => True end.
  (** The record of [id] can be read, and the job is due at every later reading of the clocks. *)
  Definition due_now (id : string) (w : world) : Prop :=
    ∃ j, stored w id = Some j ∧ ∀ i k, (reads w <= k)%nat → due j (clock i k).
  Definition fits (w : world) : Prop := Z.of_nat (length (qlist name w Queued)) <= i32_max.

  (** *** The limit *)
  Definition is_count {X : Set} (e : eff X) : bool := match e with QCount _ => true | _ => false end.
  (** The call that counts the processing jobs does not fail. *)
  Definition counts_ok (r : race M world) (x : race_event M) : Prop :=
    match x with
    | RCall i f => f = FOk ∨ ∀ p ev X (e : eff X) k,
        r_procs r !! i = Some p → p_now p = Some (ev, Eff e k) → is_count e = false
    | _ => True
    end.
  (** No process has a limit above [lim]. *)
  Definition limited (lim : nat) (x : race_event M) : Prop :=
    match x with RBegin _ (EvConfig c) _ => (max_processing_jobs c <= lim)%nat | _ => True end.
End spec.
