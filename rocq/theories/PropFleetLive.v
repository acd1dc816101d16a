(** Waiting jobs and lost slots with several processes on one queue. *)
From Verif Require Import SpecFleetLive FleetLive Demo.

Section theorems.
  Context {M : Type} `{SM : Serde M} {SO : SerdeOk M}.
  Context (prof : nat → profile).
  Context (sched : nat → string → option (time → option time)).
  Context (name : string).
  Context (clock : nat → nat → time).
  Notation fafter := (fleet_after prof sched name clock).
  Notation ok_fleet := (ok_fleet prof sched name clock).
  Notation qlist := (qlist name).
  Notation stored := (@stored M SM).
  Implicit Types es : list (nat * event M).

  (** C89, bounded arrivals: any number of processes, starting, dying and acting in any order.  A waiting
      job that is due from now on, by every process's clock, and that nobody cancels or submits again, is
      taken by a living process once the number of ticks with a free slot, at any of the processes, reaches
      the number of waiting ids plus arrivals.  Missing: unbounded arrivals, as for C15; ticks whose calls
      overlap with those of other processes. *)
  Theorem C89_taken_partial n es0 es id j :
    let f := fafter n es0 in
    ok_fleet (fleet_init n) (es0 ++ es) → id ∈ qlist (f_world f) Queued → stored (f_world f) id = Some j →
    (∀ i k, (reads (f_world f) <= k)%nat → due j (clock i k)) →
    Forall (λ ie, ¬ submits id ie.2 ∧ ie.2 ≠ EvCancel id) es →
    Z.of_nat (length (qlist (f_world f) Queued) + fleet_arrivals prof sched name clock f es) <= i32_max →
    (length (qlist (f_world f) Queued) + fleet_arrivals prof sched name clock f es
       <= useful_ticks prof sched name clock f es)%nat →
    ∃ es1 i e es2, es = es1 ++ (i, e) :: es2 ∧ taken_by (fafter n (es0 ++ es1 ++ [(i, e)])) i id.
  Proof. exact (fleet_no_starvation prof sched name clock n es0 es id j). Qed.

  (** C89: slots are common to all processes, and those of a dead process's jobs are never freed.  Once the
      ids in the processing list that no process has a task for are as many as the largest limit, no living
      process starts any job it has not started, for ever, though each of them works. *)
  Theorem C89_slots_lost_refuted L n es0 es lost :
    let f := fafter n es0 in let f' := fafter n (es0 ++ es) in
    ok_fleet (fleet_init n) (es0 ++ es) →
    NoDup lost → (∀ id, id ∈ lost → id ∈ qlist (f_world f) Running ∧ id ∉ map tid (all_tasks f)) →
    (L <= length lost)%nat →
    (∀ m, m ∈ f_members f → m_alive m = true → max_processing_jobs (m_cfg m) <= L)%nat →
    Forall (λ ie, up_to L ie.2) es →
    ∀ id, id ∉ map tid (all_tasks f) → id ∉ map tid (all_tasks f') ∧ f_runs_of id f' = f_runs_of id f.
  Proof. exact (fleet_stuck prof sched name clock L n es0 es lost). Qed.
End theorems.
Print Assumptions C89_taken_partial.
Print Assumptions C89_slots_lost_refuted.

Definition fl_after : list (nat * event Z) → fleet Z :=
  fleet_after (λ _, Debug) (λ _, demo_sched) "q" (λ i k, demo_clock (k + 100 * i)) 2.
Lemma fl_ok es : Forall (λ ie, plain_event ie.2) es →
  ok_fleet (λ _, Debug) (λ _, demo_sched) "q" (λ i k, demo_clock (k + 100 * i)) (fleet_init 2) es.
Proof.
  intros H. generalize (fleet_init (M := Z) 2) as f. induction H as [|[i e] es He _ IH]; intros f; cbn; [done|].
  split; [|apply IH]. destruct e; cbn in *; auto.
Qed.
Definition fl_limit (a b : nat) : list (nat * event Z) :=
  [(0, EvStart); (1, EvStart); (0, EvConfig (WqConfig 1%Z a)); (1, EvConfig (WqConfig 1%Z b));
   (0, EvEnqueue (demo_job "a" 1) new_re_run); (0, EvEnqueue (demo_job "b" 2) new_re_run)]%nat.
Definition fl_rest : list (nat * event Z) := [(0, EvTick); (0, EvCrash); (1, EvTick)]%nat.
(** The first process, with one slot, takes "a" and dies; the second takes "b". *)
Example C89_case :
  let f := fl_after (fl_limit 1 2) in
  ok_fleet (λ _, Debug) (λ _, demo_sched) "q" (λ i k, demo_clock (k + 100 * i)) (fleet_init 2) (fl_limit 1 2 ++ fl_rest) ∧
  qlist "q" (f_world f) Queued = ["b"; "a"] ∧
  option_map (λ j : job Z, jtype (ctx j)) (stored (M := Z) (f_world f) "b") = Some Normal ∧
  Forall (λ ie, ¬ submits "b" ie.2 ∧ ie.2 ≠ EvCancel "b") fl_rest ∧
  fleet_arrivals (λ _, Debug) (λ _, demo_sched) "q" (λ i k, demo_clock (k + 100 * i)) f fl_rest = 0%nat ∧
  useful_ticks (λ _, Debug) (λ _, demo_sched) "q" (λ i k, demo_clock (k + 100 * i)) f fl_rest = 2%nat ∧
  map (map tid) (map m_tasks (f_members (fl_after (fl_limit 1 2 ++ fl_rest)))) = [[]; ["b"]].
Proof.
  cbv zeta. split; [apply fl_ok; repeat constructor|]. split; [by vm_compute|]. split; [by vm_compute|].
  split; [unfold fl_rest; rewrite !list.Forall_cons; split_and!; try done; by intros []|]. split; [by vm_compute|]. split; by vm_compute.
Qed.
(** With one slot for the second process too, "b" is not executed by anyone, whatever is submitted,
    cancelled or retried, and however often the second process ticks. *)
Example C89_lost_case es :
  Forall (λ ie, plain_event ie.2) es → Forall (λ ie, up_to 1 ie.2) es →
  m_alive <$> (f_members (fl_after (fl_limit 1 1 ++ fl_rest)) !! 1%nat) = Some true ∧
  "b" ∈ qlist "q" (f_world (fl_after (fl_limit 1 1 ++ fl_rest))) Queued ∧
  f_runs_of "b" (fl_after ((fl_limit 1 1 ++ fl_rest) ++ es)) = [].
Proof.
  intros Hp Hu. split; [by vm_compute|]. split; [apply (bool_decide_unpack _); by vm_compute|].
  assert (qlist "q" (f_world (fl_after (fl_limit 1 1 ++ fl_rest))) Running = ["a"]) as Hr by (by vm_compute).
  assert (map tid (all_tasks (fl_after (fl_limit 1 1 ++ fl_rest))) = []) as Ht by (by vm_compute).
  assert (forallb (λ m, (max_processing_jobs (m_cfg m) <=? 1)%nat) (f_members (fl_after (fl_limit 1 1 ++ fl_rest))) = true)
    as Hm by (by vm_compute).
  assert (f_runs_of "b" (fl_after (fl_limit 1 1 ++ fl_rest)) = []) as Hb by (by vm_compute).
  assert (ok_fleet (λ _, Debug) (λ _, demo_sched) "q" (λ i k, demo_clock (k + 100 * i)) (fleet_init 2)
    ((fl_limit 1 1 ++ fl_rest) ++ es)) as Hok.
  { apply fl_ok, Forall_app. split; [repeat constructor|done]. }
  revert Hok Hr Ht Hm Hb. unfold fl_after. generalize (fl_limit 1 1 ++ fl_rest) as es0. intros es0 Hok Hr Ht Hm Hb.
  rewrite <-Hb.
  apply (C89_slots_lost_refuted (λ _, Debug) (λ _, demo_sched) "q" (λ i k, demo_clock (k + 100 * i)) 1 2 es0 es ["a"] Hok).
  - by constructor; [apply not_elem_of_nil|constructor].
  - intros id Hid. rewrite Hr, Ht. split; [done|apply not_elem_of_nil].
  - done.
  - intros m Hin _. rewrite forallb_forall in Hm. apply Nat.leb_le, Hm. by apply elem_of_list_In.
  - done.
  - rewrite Ht. apply not_elem_of_nil.
Qed.
