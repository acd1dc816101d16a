(** Which jobs calls of the API can bring back, and which they cannot. *)
From Verif Require Import BackFacts PropAny PropCut SpecBack HistFacts Demo.
Open Scope Z_scope.

Section theorems.
  Context {M : Type} `{SM : Serde M} {SO : SerdeOk M}.
  Context (prof : profile).
  Context (sched : string → option (time → option time)).
  Context (name : string).
  Context (clock : nat → time).
  Notation go := (sys_run prof sched name (mem_h clock)).
  Notation stored := (@stored M SM).
  Notation qlist := (qlist name).

  (** C111.  Whatever the storage holds, an id whose record is missing or does not say Running is executed again
      after six steps: cancel it, submit the job, make room, a tick, two polls.  It is executed once, with the
      payload of the new job.  [s] may hold repeated ids, records that are in no list, a full list of picked jobs. *)
  Theorem C111_way_back (s : sys world M) (j : job M) d u :
    sound s → status_of s (jid j) ≠ Some Running →
    Z.of_nat (S (length (qlist (sw s) Queued))) <= i32_max →
    (∀ j' k, read_back j j' → due j' (clock k)) →
    ∃ c i, process_tick_duration c = d ∧
      let z := go s (rescue j c i u) in
      alive z = true ∧ ∃ x, runs_of (jid j) z = runs_of (jid j) s ++ [x] ∧ jid x = jid j ∧ data x = data j.
  Proof. exact (way_back prof sched name clock s j d u). Qed.
  (** An id that waits, whatever its record says, is executed as it is stored. *)
  Theorem C111_waiting (s : sys world M) id (r : job M) d u :
    sound s → Z.of_nat (length (qlist (sw s) Queued)) <= i32_max →
    id ∈ qlist (sw s) Queued → stored (sw s) id = Some r →
    (∀ k, (reads (sw s) <= k)%nat → due r (clock k)) →
    ∃ c i, process_tick_duration c = d ∧
      let z := go s (wait_for c i u) in
      alive z = true ∧ ∃ x, runs_of id z = runs_of id s ++ [x] ∧ jid x = id ∧ data x = data r.
  Proof. exact (waiting_back prof sched name clock s id r d u). Qed.
  (** A job that is stored as running, does not wait and has no task: it stays so for ever, whatever is called and
      however often the process dies and starts again. *)
  Theorem C111_no_way (s : sys world M) id es :
    (∀ k j, stored (sw s) k = Some j → jid j = k) → (∀ t, t ∈ tasks s → sound_task t) →
    in_limbo name s id → in_limbo name (go s es) id ∧ runs_of id (go s es) = runs_of id s.
  Proof. exact (no_way_out prof sched name clock s id es). Qed.
  (** So these are exactly the jobs that cannot be executed any more. *)
  Theorem C111_exactly (s : sys world M) (j : job M) :
    sound s → jid j ∉ map tid (tasks s) →
    Z.of_nat (S (length (qlist (sw s) Queued))) <= i32_max →
    (∀ j' k, read_back j j' → due j' (clock k)) →
    (∀ r k, stored (sw s) (jid j) = Some r → jstatus (ctx r) = Running → (reads (sw s) <= k)%nat → due r (clock k)) →
    (∃ es, (length (runs_of (jid j) s) < length (runs_of (jid j) (go s es)))%nat) ↔ ¬ in_limbo name s (jid j).
  Proof. exact (back_iff prof sched name clock s j). Qed.
End theorems.
Print Assumptions C111_way_back.
Print Assumptions C111_waiting.
Print Assumptions C111_no_way.
Print Assumptions C111_exactly.

(** *** Examples *)
Notation back_step := (sys_step Release demo_sched "q" (mem_h demo_clock)).
Notation back_run := (sys_run Release demo_sched "q" (mem_h demo_clock)).
(** The end of the execution of "a" is cut off between taking it off the list and writing it; a new process
    starts.  "a" is in limbo. *)
Definition after_cut : sys world Z :=
  survivor (fafter (M := Z) Release demo_sched "q" demo_clock (λ _, FOk) (cut_hist ++ [EvCrashIn (EvTask 0 (demo_ok 5)) 3; EvStart])).
Example ex_C111_sound : sound after_cut.
Proof. apply C109_after_outage. by vm_compute. Qed.
Example ex_C111_limbo : in_limbo "q" after_cut "a" ∧ qlist "q" (sw after_cut) Running = ["b"].
Proof.
  split; [|by vm_compute]. split; [by vm_compute|].
  assert (qlist "q" (sw after_cut) Queued = [] ∧ map tid (tasks after_cut) = ["b"]) as [-> ->] by (by vm_compute).
  split; [by intros ?%elem_of_nil|by intros ?%elem_of_list_singleton].
Qed.
Lemma normal_due (j' : job Z) id d k : read_back (demo_job id d) j' → due j' (demo_clock k).
Proof. intros (_ & _ & Hty & _). unfold due. cbn in Hty. by inversion Hty. Qed.
Example ex_C111_exactly : ¬ ∃ es, (length (runs_of "a" after_cut) < length (runs_of "a" (back_run after_cut es)))%nat.
Proof.
  intros H. apply (C111_exactly Release demo_sched "q" demo_clock after_cut (demo_job "a" 9)) in H.
  - apply H. apply ex_C111_limbo.
  - apply ex_C111_sound.
  - assert (map tid (tasks after_cut) = ["b"]) as -> by (by vm_compute). by intros ?%elem_of_list_singleton.
  - by vm_compute.
  - intros j' k. apply normal_due.
  - intros r k Hr _ _. assert (jtype ∘ ctx <$> stored (M := Z) (sw after_cut) "a" = Some Normal) as E by (by vm_compute).
    change (jid (demo_job "a" 9)) with "a" in Hr. rewrite Hr in E. cbn in E. injection E as E. unfold due. by rewrite E.
Qed.
(** One write later the record says Finished, though "a" is not in the list of finished jobs; now it can be
    executed again. *)
Definition later_cut : sys world Z :=
  survivor (fafter (M := Z) Release demo_sched "q" demo_clock (λ _, FOk) (cut_hist ++ [EvCrashIn (EvTask 0 (demo_ok 5)) 4; EvStart])).
Example ex_C111_back : status_of later_cut "a" = Some Finished ∧ qlist "q" (sw later_cut) Finished = [] ∧
  let z := back_run later_cut (rescue (demo_job "a" 9) (WqConfig 1 3) 1 (demo_ok 0)) in
  map data (runs_of "a" z) = map data (runs_of "a" later_cut) ++ [9] ∧ alive z = true.
Proof. by vm_compute. Qed.
Example ex_C111_way_back : ∃ c i, process_tick_duration c = 1 ∧
  let z := back_run later_cut (rescue (demo_job "a" 9) c i (demo_ok 0)) in
  alive z = true ∧ ∃ x, runs_of "a" z = runs_of "a" later_cut ++ [x] ∧ jid x = "a" ∧ data x = 9.
Proof.
  apply (C111_way_back Release demo_sched "q" demo_clock later_cut (demo_job "a" 9) 1 (demo_ok 0)).
  - apply C109_after_outage. by vm_compute.
  - by vm_compute.
  - by vm_compute.
  - intros j' k. apply normal_due.
Qed.
(** After the crash of [bad_day] (C109) "a" waits twice. *)
Example ex_C111_waiting : let z := back_run remains (wait_for (WqConfig 1 3) 0 (demo_ok 0)) in
  length (runs_of "a" z) = 1%nat ∧ alive z = true ∧ qlist "q" (sw z) Queued = ["a"].
Proof. by vm_compute. Qed.
