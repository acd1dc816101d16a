(** Several job types in one process. *)
From Verif Require Import SpecOffice OfficeFacts Demo.

Section theorems.
  Context {T : Type} {TD : EqDecision T}.
  Context {M : T → Type} {SM : ∀ t, Serde (M t)}.
  Context (prof : profile).
  Context (sched : string → option (time → option time)).
  Context (name : T → string).
  Context (clock : T → nat → time).
  Context (ids : T → string → Prop).
  Context (s0 : store).
  Notation frun t := (front_run prof sched (name t) (mem_h (clock t))).
  Notation step t := (sys_step prof sched (name t) (mem_h (clock t))).
  Notation go t := (sys_run prof sched (name t) (mem_h (clock t))).
  Notation ostep := (ostep M prof sched name clock).
  Notation orun := (office_run M prof sched name clock (office_init M s0)).
  Notation before_start := (∀ t, clean (queue_of name clock ids t) s0).

  (** C94.  Any number of job types in one process, with different names and ids, whose queues' steps overlap
      at single calls of the backend: what callers of one type see, its messages and what it has in the store
      are what they would be in some process without the other types; if AJ is alive throughout, it is alive
      there too, except for what the type itself does.
      Missing: when AJ dies, it may die there of something that this type did not do (false below). *)
  Theorem C94_as_alone_partial oes t :
    separate name ids → before_start → Forall (keeps_ids ids) oes →
    ∃ fs, as_in name clock ids (orun oes) t (frun t (front_init (World s0 0 [])) fs) ∧
      ((∀ k, o_up (orun (take k oes)) = true) → FAjGone ∉ fs).
  Proof. exact (λ H1 H2 H3, as_alone prof sched name clock ids H1 s0 oes t H2 H3). Qed.
  (** AJ dies only when it is to register a type that is registered: two first submissions raced. *)
  Theorem C94_aj_dies_only oes oe :
    separate name ids → before_start → Forall (keeps_ids ids) oes →
    o_up (orun oes) = true → o_up (ostep (orun oes) oe) = false →
    oe = OAj ∧ ∃ t i box c, o_box (orun oes) = (t, i) :: box ∧ d_cs (desks (orun oes) t) !! i = Some c ∧
      c_at c = InitSent ∧ d_known (desks (orun oes) t) = true.
  Proof. exact (λ H1 H2 H3, office_dies prof sched name clock ids H1 s0 oes H2 H3 oe). Qed.
  (** What happened to the queue of type [t] is a sequential history of its own steps and of the messages of
      its calls, on the store it started with, and every answer is the answer in that history; between steps,
      the queue has in the store what it has there after that history. *)
  Theorem C94_history oes t :
    separate name ids → before_start → Forall (keeps_ids ids) oes →
    let d := desks (orun oes) t in
    let es := map (λ x, x.1.2) (d_trace d) in
    let after es := go t (sys_init (World s0 0 [])) es in
    own_state (after es) = d_q d ∧
    (∀ k i e r, d_trace d !! k = Some (i, e, r) → r = (step t (after (take k es)) e).2) ∧
    (d_busy d = None →
       reads (sw (after es)) = d_reads d ∧ log (sw (after es)) = d_log d ∧
       same_view (queue_of name clock ids t) (st (sw (after es))) (o_store (orun oes))).
  Proof. exact (λ H1 H2 H3, office_history prof sched name clock ids H1 s0 oes H2 H3 t). Qed.
  Theorem C94_no_other_steps oes t k i e r :
    separate name ids → before_start → Forall (keeps_ids ids) oes →
    d_trace (desks (orun oes) t) !! k = Some (i, e, r) →
    match i with Some i => is_Some (d_cs (desks (orun oes) t) !! i) | None => by_itself (c_call <$> d_cs (desks (orun oes) t)) e end.
  Proof. exact (λ H1 H2 H3, office_own_steps prof sched name clock ids H1 s0 oes H2 H3 t k i e r). Qed.
  (** Each call has the steps it asks for, between call and return, and returns their answer, or did not reach
      a living queue; calls one after the other take effect in this order. *)
  Theorem C94_answers oes t i c :
    separate name ids → before_start → Forall (keeps_ids ids) oes →
    let d := desks (orun oes) t in
    d_cs d !! i = Some c →
    fits (c_call c) (c_from c) (steps_of i (d_trace d)) ∧
    ∀ r to, c_at c = Returned r to →
      explained (c_call c) (c_from c) to r (steps_of i (d_trace d)) ∧ (to <= length (d_trace d))%nat.
  Proof. exact (λ H1 H2 H3, office_answers prof sched name clock ids H1 s0 oes H2 H3 t i c). Qed.
  Theorem C94_real_time oes t i1 i2 c1 c2 r1 to1 k1 e1 x1 k2 e2 x2 :
    separate name ids → before_start → Forall (keeps_ids ids) oes →
    let d := desks (orun oes) t in
    d_cs d !! i1 = Some c1 → d_cs d !! i2 = Some c2 →
    c_at c1 = Returned r1 to1 → (to1 <= c_from c2)%nat →
    d_trace d !! k1 = Some (Some i1, e1, x1) → d_trace d !! k2 = Some (Some i2, e2, x2) → (k1 < k2)%nat.
  Proof. exact (λ H1 H2 H3, office_order prof sched name clock ids H1 s0 oes H2 H3 t i1 i2 c1 c2 r1 to1 k1 e1 x1 k2 e2 x2). Qed.
  (** Every call can be brought to its end by its own thread, AJ and its own queue, with the queues and
      callers of other types standing still wherever they are. *)
  Theorem C94_no_deadlock oes t i c :
    separate name ids → before_start → Forall (keeps_ids ids) oes →
    d_cs (desks (orun oes) t) !! i = Some c →
    ∃ oes' c', Forall (tends t) oes' ∧ d_cs (desks (orun (oes ++ oes')) t) !! i = Some c' ∧
      (c_at c' = Gone ∨ ∃ r to, c_at c' = Returned r to).
  Proof. exact (λ H1 H2 H3, office_served prof sched name clock ids H1 s0 oes H2 H3 t i c). Qed.
End theorems.
Print Assumptions C94_as_alone_partial.
Print Assumptions C94_aj_dies_only.
Print Assumptions C94_history.
Print Assumptions C94_no_other_steps.
Print Assumptions C94_answers.
Print Assumptions C94_real_time.
Print Assumptions C94_no_deadlock.

(** Two types: numbers ([false]) and texts ([true]). *)
Definition po_text_serde : Serde string := {| ser s := Some (JStr s); de := dec_str |}.
Definition po_type (t : bool) : Type := if t then string else Z.
Definition po_serde (t : bool) : Serde (po_type t) :=
  match t return Serde (po_type t) with true => po_text_serde | false => demo_serde end.
Definition po_name (t : bool) : string := if t then "texts" else "numbers".
Definition po_ids (t : bool) (id : string) : Prop := if t then id = "t" else id = "a" ∨ id = "b".
Definition po_run (name : bool → string) (oes : list (oevent po_type)) : office po_type :=
  office_run (SM := po_serde) po_type Debug demo_sched name (λ _, demo_clock) (office_init po_type store_empty) oes.
Definition po_num (id : string) : oevent po_type := OCall (M := po_type) false (CRun (demo_job id 1) new_re_run).
Definition po_txt (id : string) : oevent po_type := OCall (M := po_type) true (CRun (job_new id 0 "x") new_re_run).
Definition po_at (o : office po_type) (t : bool) (i : nat) : option nat :=
  (λ c, match c_at c with
        | AtSpawn => 0 | AtLookup => 1 | AtInit => 2 | InitSent => 3 | AtSend => 4 | MsgSent => 5
        | Returned (RUnit (Ok tt)) _ => 6 | Returned (RUnit (Err EMailbox)) _ => 7 | Returned _ _ => 8 | Gone => 9
        end%nat) <$> d_cs (desks o t) !! i.

Lemma po_separate : separate po_name po_ids.
Proof. intros [] []; try done; intros _; (split; [done|]); cbn; intros id; naive_solver. Qed.
Lemma po_clean t : clean (queue_of (SM := po_serde) po_name (λ _, demo_clock) po_ids t) store_empty.
Proof. split; [intros s x H; by apply elem_of_nil in H|]. intros x js j _ H. done. Qed.

(** Both types submit a job, the first of its type; both queues start and enqueue, call by call in turns. *)
Definition po_both : list (oevent po_type) :=
  ([po_num "a"; po_txt "t"; OGo false 0; OGo true 0; OGo true 0; OGo false 0; OAj; OAj; OGo false 0; OGo true 0;
    OBegin false; OBegin true] ++
   concat (repeat [OEff false; OEff true] 6) ++ [OEnd true; OEnd false; OTake true; OTake false] ++
   concat (repeat [OEff true; OEff false] 6) ++ [OEnd false; OEnd true])%nat.
Example C94_case :
  let o := po_run po_name po_both in
  Forall (keeps_ids (M := po_type) po_ids) po_both ∧
  o_up o = true ∧ po_at o false 0 = Some 6%nat ∧ po_at o true 0 = Some 6%nat ∧
  items (o_store o) (format_queue_name "numbers" Queued) = ["a"] ∧
  items (o_store o) (format_queue_name "texts" Queued) = ["t"].
Proof.
  cbv zeta. split; [repeat constructor|]. split; [by vm_compute|]. split; [by vm_compute|]. split; [by vm_compute|].
  split; by vm_compute.
Qed.
(** In the middle of both submissions, the call of "t" is brought to its end while the queue of numbers
    stands still. *)
Example C94_no_deadlock_case :
  let oes := take 33 po_both in
  let more := repeat (OEff true) 6 ++ [OEnd true] in
  let d := desks (po_run po_name oes) false in
  po_at (po_run po_name oes) true 0 = Some 5%nat ∧
  match d_busy d with Some b => b_made b = 2%nat | None => False end ∧
  Forall (tends (M := po_type) true) more ∧
  po_at (po_run po_name (oes ++ more)) true 0 = Some 6%nat ∧
  po_at (po_run po_name (oes ++ more)) false 0 = Some 5%nat.
Proof.
  cbv zeta. split; [by vm_compute|]. split; [by vm_compute|]. split; [repeat constructor|]. split; by vm_compute.
Qed.

(** C94 is false for the submissions of another type: two first submissions of numbers race, AJ dies, and
    then no text can be submitted, although nobody did anything wrong with texts. *)
Definition po_race : list (oevent po_type) :=
  [po_num "a"; po_num "b"; OGo false 0; OGo false 1; OGo false 0; OGo false 1; OAj; OAj]%nat.
Theorem C94_other_type_refuted :
  Forall (keeps_ids (M := po_type) po_ids) po_race ∧
  let o := po_run po_name (po_race ++ [po_txt "t"; OGo true 0; OGo true 0]%nat) in
  po_at o true 0 = Some 7%nat ∧
  (* without the numbers, the text is submitted *)
  po_at (po_run po_name ([po_txt "t"; OGo true 0; OGo true 0; OAj; OGo true 0; OBegin true] ++
    repeat (OEff true) 6 ++ [OEnd true; OTake true] ++ repeat (OEff true) 6 ++ [OEnd true])%nat) true 0 = Some 6%nat.
Proof. split; [repeat (apply list.Forall_cons_2; [cbn; auto|]); constructor|]. cbv zeta. split; by vm_compute. Qed.
Print Assumptions C94_other_type_refuted.
(** Types with the same queue name cannot both be used: the first submission of the second one kills AJ. *)
Theorem C94_same_name_refuted :
  let o := po_run (λ _, "jobs") ([po_num "a"; OGo false 0; OGo false 0; OAj; po_txt "t"; OGo true 0; OGo true 0])%nat in
  o_up o = true ∧ po_at o true 0 = Some 3%nat ∧
  let o' := ostep (SM := po_serde) po_type Debug demo_sched (λ _, "jobs") (λ _, demo_clock) o OAj in
  o_up o' = false ∧ po_at o' true 0 = Some 7%nat.
Proof. cbv zeta. split; [by vm_compute|]. split; [by vm_compute|]. split; by vm_compute. Qed.
Print Assumptions C94_same_name_refuted.
