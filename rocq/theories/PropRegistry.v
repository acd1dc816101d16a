(** First use of job types, AJ::start. *)
From Verif Require Import SpecRegistry RegistryFacts.

(** C47, what always holds: however calls, AJ and its futures interleave, at most one queue is started
    for each type and for each name, and jobs are only given to the queue of their type. *)
Theorem C47_one_queue es :
  let s := reg_run reg_init es in
  NoDup (started s).*1 ∧ NoDup (started s).*2 ∧
  ∀ i c a, calls s !! i = Some (c, CSent a) → ∃ n, started s !! a = Some (c_type c, n).
Proof. exact (one_queue es). Qed.
Print Assumptions C47_one_queue.

(** C47 for orderly callers: each type has a queue name of its own, and no call looks for the queue
    while another call of the type has its registration under way.  Then no call fails, and all jobs
    submitted so far can be brought to their queues.  Missing: callers that are not orderly, for which
    it is false. *)
Theorem C47_orderly_partial nm es :
  (∀ a b, nm a = nm b → a = b) → Forall (uses_names nm) es → orderly reg_init es →
  let s := reg_run reg_init es in
  aj_alive s = true ∧ (∀ i c x, calls s !! i = Some (c, x) → x ≠ CFailed ∧ x ≠ CDropped) ∧
  ∃ es', Forall internal es' ∧ orderly s es' ∧ all_sent (reg_run s es').
Proof. exact (orderly_calls nm es). Qed.
Print Assumptions C47_orderly_partial.

(** Two calls of two types, the second type also by just_run. *)
Definition two_names (ty : nat) : string := match ty with O => "a" | S _ => "b" end.
Definition polite : list reg_event :=
  [RRun 0 "a"; RStep 0; RRun 1 "b"; RStep 1; RStep 0; RStep 1; RHandle; RHandle; RJust 1 "b"; RHandle; RStep 2; RStep 0].
Example C47_orderly_case :
  let s := reg_run reg_init polite in
  orderly reg_init polite ∧ map snd (calls s) = [CSent 0; CGot 1; CGot 1]%nat ∧
  started s = [(0%nat, "a"); (1%nat, "b")].
Proof.
  split; [|by vm_compute]. unfold polite. cbn [orderly]. repeat (split; [try done|]); try done.
  all: intros c E (k & c' & x & E' & Et & Hx); vm_compute in E, E'.
  all: repeat (destruct k as [|k]; cbn in E'; [injection E' as <- <-|]); try done.
  all: injection E as <-; try done; by destruct Hx.
Qed.

(** C47 is false.  In general: whenever two calls of one type, or of types with one name, both found no
    queue, there is a continuation that ends AJ and makes a call fail ... *)
Theorem C47_race_refuted s i j c c' :
  aj_alive s = true → inbox s = [] → i ≠ j →
  calls s !! i = Some (c, CInit) → calls s !! j = Some (c', CInit) →
  c_type c = c_type c' ∨ c_name c = c_name c' →
  let s' := reg_run s [RStep i; RStep j; RHandle; RHandle] in
  aj_alive s' = false ∧
  calls s' !! j = Some (c', if c_spawned c' then CDropped else CFailed).
Proof. exact (race s i j c c'). Qed.
Print Assumptions C47_race_refuted.

(** ... after which no job of a type without a queue is accepted, whatever happens: no new queue is
    ever started, and jobs only reach queues that were there before. *)
Theorem C47_dead_for_ever es es' :
  aj_alive (reg_run reg_init es) = false →
  aj_alive (reg_run reg_init (es ++ es')) = false ∧
  started (reg_run reg_init (es ++ es')) = started (reg_run reg_init es) ∧
  ∀ i c a, calls (reg_run reg_init (es ++ es')) !! i = Some (c, CSent a) →
    c_type c ∈ (started (reg_run reg_init es)).*1.
Proof. exact (λ H, dead_summary es es' H). Qed.
Print Assumptions C47_dead_for_ever.

(** Two calls of run() by two threads: the second fails.  Two calls of just_run() in a row by one
    thread: both jobs are lost without a trace. *)
Definition two_runs : list reg_event :=
  [RRun 0 "a"; RRun 0 "a"; RStep 0; RStep 1; RStep 0; RStep 1; RHandle; RHandle; RStep 0].
Definition two_just_runs : list reg_event :=
  [RJust 0 "a"; RJust 0 "a"; RHandle; RHandle; RStep 0; RStep 1; RStep 0; RStep 1; RHandle; RHandle].
Theorem C47_first_use_refuted :
  (let s := reg_run reg_init two_runs in
   map snd (calls s) = [CSent 0%nat; CFailed] ∧ aj_alive s = false) ∧
  (let s := reg_run reg_init two_just_runs in
   map snd (calls s) = [CDropped; CDropped] ∧ inbox s = [] ∧ aj_alive s = false).
Proof. vm_compute. split; split; try split; done. Qed.
Print Assumptions C47_first_use_refuted.
(** Two types with one name, one after the other. *)
Example C47_same_name_case :
  let s := reg_run reg_init
    [RRun 0 "a"; RStep 0; RStep 0; RHandle; RStep 0; RRun 1 "a"; RStep 1; RStep 1; RHandle;
     RRun 2 "c"; RStep 2; RStep 2] in
  map snd (calls s) = [CSent 0%nat; CFailed; CFailed] ∧ aj_alive s = false.
Proof. vm_compute. split; done. Qed.

(** C47, what always holds, disorderly callers included: no caller is left waiting.  A waiting call has
    its message in the mailbox of a living AJ; ... *)
Theorem C47_waits_for_message es i c :
  let s := reg_run reg_init es in
  calls s !! i = Some (c, CWait) → aj_alive s = true ∧ MInit i ∈ inbox s.
Proof. exact (waits_for_message es i c). Qed.
Print Assumptions C47_waits_for_message.
(** ... all calls so far can be brought to their end; ... *)
Theorem C47_calls_end es :
  ∃ es', Forall internal es' ∧
    ∀ i c x, calls (reg_run reg_init (es ++ es')) !! i = Some (c, x) → final x = true.
Proof. exact (run_ends es). Qed.
Print Assumptions C47_calls_end.
(** ... and how a call ended does not change: what AJ gave to a queue outlives AJ. *)
Theorem C47_end_is_final s es i c x :
  calls s !! i = Some (c, x) → final x = true → calls (reg_run s es) !! i = Some (c, x).
Proof. exact (final_stays s es i c x). Qed.
Print Assumptions C47_end_is_final.
(** Two first calls of one type at the same time, and one of another type before. *)
Example C47_calls_end_case :
  let es := [RRun 1 "b"; RStep 0; RStep 0; RHandle; RStep 0; RRun 0 "a"; RRun 0 "a"; RStep 1; RStep 2; RStep 1; RStep 2] in
  let s := reg_run reg_init es in
  map snd (calls s) = [CSent 0; CWait; CWait]%nat ∧ inbox s = [MInit 1; MInit 2]%nat ∧
  map snd (calls (reg_run s [RHandle; RHandle; RStep 1])) = [CSent 0; CSent 1; CFailed]%nat.
Proof. vm_compute. split; [done|]. by split. Qed.

(** C48, what always holds: a returned address belongs to an AJ that was started. *)
Theorem C48_returned_started es i a :
  threads (boot_run boot_init es) !! i = Some (SReturned a) →
  (a < actors (boot_run boot_init es))%nat.
Proof. exact (returned_started es i a). Qed.
Print Assumptions C48_returned_started.

(** C48 if the first start returns before any other call of start or get_aj_address: all calls in all
    interleavings return the same address, no call panics, and there is one AJ.  Missing: other
    histories, for which it is false. *)
Theorem C48_first_alone_partial es :
  let s := boot_run boot_init (BStart :: repeat (BStep 0) 7 ++ es) in
  actors s = 1%nat ∧ slot s = Some 0%nat ∧
  ∀ i x, threads s !! i = Some x →
    x ≠ SPanicked ∧ (∀ a, x = SReturned a → a = 0%nat) ∧ (∀ o, x = GReturned o → o = Some 0%nat).
Proof. exact (first_alone es). Qed.
Print Assumptions C48_first_alone_partial.
Example C48_first_alone_case :
  let s := boot_run boot_init (BStart :: repeat (BStep 0) 7 ++
    [BStart; BStart; BGet; BStep 1; BStep 3; BStep 2; BStep 1; BStep 2; BStep 3]) in
  threads s = [SReturned 0; SReturned 0; SReturned 0; GReturned (Some 0)]%nat.
Proof. by vm_compute. Qed.

(** C48 is false: two starts that both found no AJ start two and return different addresses ... *)
Theorem C48_two_starts_refuted s i j :
  slot s = None → writer s = false → readers s = 0%nat → i ≠ j →
  threads s !! i = Some SCreate → threads s !! j = Some SCreate →
  let one k := repeat (BStep k) 5 in
  let s' := boot_run s (one i ++ one j) in
  actors s' = S (S (actors s)) ∧
  threads s' !! i = Some (SReturned (actors s)) ∧ threads s' !! j = Some (SReturned (S (actors s))).
Proof. exact (two_starts s i j). Qed.
Print Assumptions C48_two_starts_refuted.

(** ... and a single start panics if another thread calls get_aj_address (every run and just_run
    does) at the wrong moment; the address is then never stored. *)
Theorem C48_reader_refuted s i g a :
  slot s = None → writer s = false → i ≠ g →
  threads s !! i = Some (SCreated a) → threads s !! g = Some GFirst →
  let s' := boot_run s [BStep g; BStep i; BStep i; BStep i] in
  threads s' !! i = Some SPanicked ∧ slot s' = None.
Proof. exact (reader_panics s i g a). Qed.
Print Assumptions C48_reader_refuted.

(** ... or if another start stores its own address at this moment. *)
Theorem C48_writer_refuted s i j a :
  writer s = false → readers s = 0%nat → i ≠ j →
  threads s !! i = Some SSecond → threads s !! j = Some (SCreated a) →
  let s' := boot_run s [BStep j; BStep i] in
  threads s' !! i = Some SPanicked ∧ threads s' !! j = Some (SWriting a).
Proof. exact (writer_panics s i j a). Qed.
Print Assumptions C48_writer_refuted.

(** C48, what always holds: no call waits for another; each ends (with an address or a panic) after at most seven
    steps of its own, whatever the other threads do. *)
Theorem C48_calls_end es es' i :
  is_Some (threads (boot_run boot_init es) !! i) → (7 ≤ steps_of i es')%nat →
  ∃ x, threads (boot_run boot_init (es ++ es')) !! i = Some x ∧ ended_call x = true.
Proof. exact (calls_end es es' i). Qed.
Print Assumptions C48_calls_end.
(** Two starts and a reader in lock step. *)
Example C48_calls_end_case :
  let es := [BStart; BStart; BGet] in
  let es' := concat (replicate 7 [BStep 0; BStep 1; BStep 2]) in
  is_Some (threads (boot_run boot_init es) !! 1%nat) ∧ steps_of 1 es' = 7%nat ∧
  threads (boot_run boot_init (es ++ es')) = [SReturned 0%nat; SReturned 0%nat; GReturned None].
Proof. vm_compute. split; [by eexists|]. split; done. Qed.
Example C48_writer_case :
  let s := boot_run boot_init ([BStart; BStart; BStep 0; BStep 1; BStep 0; BStep 1; BStep 1] ++ repeat (BStep 0) 3) in
  writer s = false ∧ readers s = 0%nat ∧ threads s = [SSecond; SCreated 0]%nat.
Proof. vm_compute. split; [done|]. split; done. Qed.

(** C48, what always holds: the lock is held for reading by as many calls as it counts, for writing by one
    at most, and not for both ... *)
Theorem C48_lock es :
  let s := boot_run boot_init es in
  readers s = how_many reading s ∧ (how_many writing s <= 1)%nat ∧ (writer s = true ↔ how_many writing s = 1%nat) ∧
  (how_many writing s = 1%nat → how_many reading s = 0%nat).
Proof. exact (lock es). Qed.
Print Assumptions C48_lock.
Example C48_lock_case :
  let s := boot_run boot_init [BStart; BStart; BGet; BStep 0; BStep 2; BStep 1] in
  readers s = 3%nat ∧ writer (boot_run s ([BStep 2] ++ concat (repeat [BStep 0; BStep 1] 2) ++ [BStep 1])) = true.
Proof. vm_compute. by split. Qed.
(** ... so that a start made while no other call is under way succeeds after any history, even one in which
    earlier starts panicked: it returns the stored address, a new one only if none was stored. *)
Theorem C48_quiet_start_partial es :
  let s := boot_run boot_init es in
  let i := length (threads s) in
  let s' := boot_run s (BStart :: repeat (BStep i) 7) in
  Forall (λ x, ended_call x = true) (threads s) →
  ∃ a, threads s' = threads s ++ [SReturned a] ∧ slot s' = Some a ∧
    match slot s with Some b => a = b ∧ actors s' = actors s | None => actors s' = S (actors s) end.
Proof. exact (quiet_start es). Qed.
Print Assumptions C48_quiet_start_partial.
Example C48_quiet_start_case :
  let es := [BStart; BGet; BStep 0; BStep 0; BStep 0; BStep 1; BStep 0; BStep 0; BStep 0; BStep 1] in
  let s := boot_run boot_init es in
  threads s = [SPanicked; GReturned None] ∧ Forall (λ x, ended_call x = true) (threads s).
Proof. vm_compute. split; [done|]. by repeat constructor. Qed.

Theorem C48_start_refuted :
  (let s := boot_run boot_init ([BStart; BStart; BStep 0; BStep 1; BStep 0; BStep 1] ++
     repeat (BStep 0) 5 ++ repeat (BStep 1) 5) in
   threads s = [SReturned 0; SReturned 1]%nat) ∧
  (let s := boot_run boot_init [BStart; BGet; BStep 0; BStep 0; BStep 0; BStep 1; BStep 0; BStep 0; BStep 0] in
   threads s = [SPanicked; GHeld] ∧ slot s = None ∧ actors s = 1%nat).
Proof. vm_compute. split; [done|]. split; [done|]. split; done. Qed.
Print Assumptions C48_start_refuted.
