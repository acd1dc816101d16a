(** Several job types in one process whose backend is Redis. *)
From Verif Require Import SpecOfficeRedis OfficeRedisFacts PropOffice Demo.

Section theorems.
  Context {T : Type} {TD : EqDecision T}.
  Context {M : T → Type} {SM : ∀ t, Serde (M t)}.
  Context (prof : profile).
  Context (sched : string → option (time → option time)).
  Context (name : T → string).
  Context (clock : T → nat → time).
  Context (ids : T → string → Prop).
  Notation step t := (sys_step prof sched (name t) (redis_h (clock t))).
  Notation go t := (sys_run prof sched (name t) (redis_h (clock t))).
  Notation orun := (office_run M prof sched name clock (office_init M store_empty)).
  Notation rorun := (roffice_run M prof sched name clock (roffice_init M ∅)).

  (** C122: whatever the types, their names and ids, and however the steps of their queues overlap command by
      command, with crashes anywhere: all queues, callers and mailboxes, and the lists and records of all
      queues, are as on the in-memory store. *)
  Theorem C122_same_view oes :
    (∀ t, desks (ro_office (rorun oes)) t = desks (orun oes) t) ∧
    o_up (ro_office (rorun oes)) = o_up (orun oes) ∧ o_box (ro_office (rorun oes)) = o_box (orun oes) ∧
    o_names (ro_office (rorun oes)) = o_names (orun oes) ∧
    (∀ q x, k_list (ro_keys (rorun oes)) q x = items (o_store (orun oes)) (format_queue_name q x)) ∧
    (∀ id, k_value (ro_keys (rorun oes)) id = mem_sget (o_store (orun oes)) STORAGE_HASH id).
  Proof. exact (office_view prof sched name clock oes). Qed.

  (** C122: with different names and ids, what happened to the queue of type [t] is a sequential history of its
      own on a server that it has for itself; every answer is the answer in that history; between steps, the
      queue has on the shared server what it has there. *)
  Theorem C122_history oes t :
    separate name ids → Forall (keeps_ids ids) oes →
    let d := desks (ro_office (rorun oes)) t in
    let es := map (λ x, x.1.2) (d_trace d) in
    let after es := go t (sys_init rworld_empty) es in
    own_state (after es) = d_q d ∧
    (∀ k i e r, d_trace d !! k = Some (i, e, r) → r = (step t (after (take k es)) e).2) ∧
    (d_busy d = None →
       rreads (sw (after es)) = d_reads d ∧ rlog (sw (after es)) = d_log d ∧
       (∀ x, k_list (keys (sw (after es))) (name t) x = k_list (ro_keys (rorun oes)) (name t) x) ∧
       (∀ id, ids t id → k_value (keys (sw (after es))) id = k_value (ro_keys (rorun oes)) id)).
  Proof. exact (office_redis_history prof sched name clock ids oes t). Qed.
  (** C122: each call has the steps it asks for, between call and return, and returns their answer; calls one
      after the other take effect in this order. *)
  Theorem C122_answers oes t i c :
    separate name ids → Forall (keeps_ids ids) oes →
    let d := desks (ro_office (rorun oes)) t in
    d_cs d !! i = Some c →
    fits (c_call c) (c_from c) (steps_of i (d_trace d)) ∧
    ∀ r to, c_at c = Returned r to →
      explained (c_call c) (c_from c) to r (steps_of i (d_trace d)) ∧ (to <= length (d_trace d))%nat.
  Proof. exact (office_redis_answers prof sched name clock ids oes t i c). Qed.
  Theorem C122_real_time oes t i1 i2 c1 c2 r1 to1 k1 e1 x1 k2 e2 x2 :
    separate name ids → Forall (keeps_ids ids) oes →
    let d := desks (ro_office (rorun oes)) t in
    d_cs d !! i1 = Some c1 → d_cs d !! i2 = Some c2 →
    c_at c1 = Returned r1 to1 → (to1 <= c_from c2)%nat →
    d_trace d !! k1 = Some (Some i1, e1, x1) → d_trace d !! k2 = Some (Some i2, e2, x2) → (k1 < k2)%nat.
  Proof. exact (office_redis_order prof sched name clock ids oes t i1 i2 c1 c2 r1 to1 k1 e1 x1 k2 e2 x2). Qed.
  (** C122: AJ dies only when it is to register a type that is registered. *)
  Theorem C122_aj_dies_only oes oe :
    separate name ids → Forall (keeps_ids ids) (oes ++ [oe]) →
    o_up (ro_office (rorun oes)) = true → o_up (ro_office (rorun (oes ++ [oe]))) = false →
    oe = OAj ∧ ∃ t i box c, o_box (ro_office (rorun oes)) = (t, i) :: box ∧
      d_cs (desks (ro_office (rorun oes)) t) !! i = Some c ∧
      c_at c = InitSent ∧ d_known (desks (ro_office (rorun oes)) t) = true.
  Proof. exact (office_redis_dies prof sched name clock ids oes oe). Qed.
  (** C122: every call can be brought to its end while queues and callers of other types stand still, in the
      middle of their commands or not. *)
  Theorem C122_no_deadlock oes t i c :
    separate name ids → Forall (keeps_ids ids) oes →
    d_cs (desks (ro_office (rorun oes)) t) !! i = Some c →
    ∃ oes' c', Forall (tends t) oes' ∧ d_cs (desks (ro_office (rorun (oes ++ oes'))) t) !! i = Some c' ∧
      (c_at c' = Gone ∨ ∃ r to, c_at c' = Returned r to).
  Proof. exact (office_redis_served prof sched name clock ids oes t i c). Qed.
End theorems.
Print Assumptions C122_same_view.
Print Assumptions C122_history.
Print Assumptions C122_answers.
Print Assumptions C122_real_time.
Print Assumptions C122_aj_dies_only.
Print Assumptions C122_no_deadlock.

(** *** Cases *)
Definition rpo_run (oes : list (oevent po_type)) : roffice po_type :=
  roffice_run (SM := po_serde) po_type Debug demo_sched po_name (λ _, demo_clock) (roffice_init po_type ∅) oes.
(** Both types submit a job, command by command in turns; both are on the server, the calls have returned. *)
Example C122_case :
  let r := rpo_run po_both in
  separate po_name po_ids ∧ Forall (keeps_ids (M := po_type) po_ids) po_both ∧
  o_up (ro_office r) = true ∧ po_at (ro_office r) false 0 = Some 6%nat ∧ po_at (ro_office r) true 0 = Some 6%nat ∧
  k_list (ro_keys r) "numbers" Queued = ["a"] ∧ k_list (ro_keys r) "texts" Queued = ["t"] ∧
  k_value (ro_keys r) "a" ≠ None ∧ k_value (ro_keys r) "t" ≠ None ∧
  length (d_trace (desks (ro_office r) true)) = 2%nat.
Proof.
  cbv zeta. split; [apply po_separate|]. split; [repeat constructor|]. split; [by vm_compute|]. split; [by vm_compute|].
  split; [by vm_compute|]. split; [by vm_compute|]. split; [by vm_compute|]. split; [by vm_compute|]. split; by vm_compute.
Qed.
(** In the middle of both submissions, the call of "t" is brought to its end while the queue of numbers stands
    still between two commands. *)
Example C122_no_deadlock_case :
  let oes := take 33 po_both in
  let more := repeat (OEff true) 6 ++ [OEnd true] in
  po_at (ro_office (rpo_run oes)) true 0 = Some 5%nat ∧
  match d_busy (desks (ro_office (rpo_run oes)) false) with Some b => b_made b = 2%nat | None => False end ∧
  Forall (tends (M := po_type) true) more ∧
  po_at (ro_office (rpo_run (oes ++ more))) true 0 = Some 6%nat ∧
  po_at (ro_office (rpo_run (oes ++ more))) false 0 = Some 5%nat.
Proof.
  cbv zeta. split; [by vm_compute|]. split; [by vm_compute|]. split; [repeat constructor|]. split; by vm_compute.
Qed.
(** Two first submissions of numbers race, and AJ dies. *)
Example C122_case_dies :
  let oes := take 7 po_race in
  po_race = oes ++ [OAj] ∧ Forall (keeps_ids (M := po_type) po_ids) po_race ∧
  o_up (ro_office (rpo_run oes)) = true ∧ o_up (ro_office (rpo_run (oes ++ [OAj]))) = false.
Proof. cbv zeta. split; [done|]. split; [repeat (apply list.Forall_cons_2; [cbn; auto|]); constructor|]. split; by vm_compute. Qed.
(** The calls of "a" and "b", one after the other. *)
Definition rpo_two : list (oevent po_type) :=
  (po_both ++ [po_num "b"; OGo false 1; OGo false 1; OTake false] ++ repeat (OEff false) 6 ++ [OEnd false])%nat.
Example C122_case_order :
  let d := desks (ro_office (rpo_run rpo_two)) false in
  Forall (keeps_ids (M := po_type) po_ids) rpo_two ∧
  map (λ x, x.1.1) (d_trace d) = [None; Some 0; Some 1]%nat ∧
  map (λ c, match c_at c with Returned _ to => Some (c_from c, to) | _ => None end) (d_cs d) = [Some (0, 2); Some (2, 3)]%nat.
Proof. cbv zeta. split; [repeat (apply list.Forall_cons_2; [cbn; auto|]); constructor|]. split; by vm_compute. Qed.
