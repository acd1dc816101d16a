(** Properties of ticks: capacity, termination, order, starvation, configuration. *)
From Verif Require Import Spec MicroFacts HistFacts PickFacts StarveFacts Demo.

Section theorems.
  Context {M : Type} `{SM : Serde M} {SO : SerdeOk M}.
  Context (prof : profile).
  Context (sched : string → option (time → option time)).
  Context (name : string).
  Context (clock : nat → time).
  Notation after := (after prof sched name clock).
  Notation ok_hist := (ok_hist prof sched name clock).
  Notation qlist := (qlist name).
  Notation stored := (@stored M SM).
  Notation step := (sys_step prof sched name (mem_h clock)).
  Notation sys := (sys world M).
  Notation go := (sys_run prof sched name (mem_h clock)).
  Implicit Types es : list (event M).

  (** C10: a tick that finds the limit reached changes nothing at all, in any state. *)
  Theorem C10_tick_at_limit (s : sys) :
    alive s = true → (max_processing_jobs (cfg s) <= length (qlist (sw s) Running))%nat →
    (step s EvTick).1 = s.
  Proof. exact (tick_full prof sched name clock s). Qed.

  (** C12.  [s] is any reachable state with less than 2^31 waiting ids.  A tick starts as many jobs as
      there are free slots, or leaves only ids that were not due at some reading of the tick; what
      it starts was waiting and due, and nothing else leaves the waiting list. *)
  Theorem C12_work_conserving es :
    let s := after es in let s' := after (es ++ [EvTick]) in
    ok_hist initial es → alive s = true → Z.of_nat (length (qlist (sw s) Queued)) <= i32_max →
    ∃ new : list (job M),
      tasks s' = tasks s ++ map (λ j, Task j j Spawned) new ∧
      qlist (sw s) Queued ≡ₚ qlist (sw s') Queued ++ map jid new ∧
      (length new <= free_slots name s)%nat ∧
      (∀ j', j' ∈ new → ∃ j k, stored (sw s) (jid j') = Some j ∧ data j' = data j ∧
         (reads (sw s) <= k < reads (sw s'))%nat ∧ due j (clock k)) ∧
      (length new = free_slots name s ∨
       ∀ id, id ∈ qlist (sw s') Queued → ∃ j k, stored (sw s) id = Some j ∧ stored (sw s') id = Some j ∧
         (reads (sw s) <= k < reads (sw s'))%nat ∧ ¬ due j (clock k)).
  Proof. exact (tick_work prof sched name clock es). Qed.

  (** C13: any content of the backend. *)
  Theorem C13_picking_terminates max (w : world) :
    Z.of_nat (length (qlist w Queued)) <= i32_max →
    ∃ (js : list (job M)) w', run (mem_h clock) (pick_jobs_to_process prof name max) w = (w', Done (Ok js)).
  Proof. exact (pick_done prof name clock max w). Qed.

  (** C14 for waiting lists of at most 20 ids.  [rdy] says which of them are due; it must not change
      during the tick.  The ids that start are the oldest due ones, in the order of submission (the
      waiting list has its newest id first), and the others keep their order.  Missing: longer
      waiting lists, for which it is false. *)
  Theorem C14_fifo_partial (rdy : string → bool) es :
    let s := after es in let s' := after (es ++ [EvTick]) in
    ok_hist initial es → alive s = true → (length (qlist (sw s) Queued) <= 20)%nat →
    (∀ id j, id ∈ qlist (sw s) Queued → stored (sw s) id = Some j →
       ∀ k, due j (clock k) ↔ rdy id = true) →
    let started := take (free_slots name s) (filter (λ id, rdy id = true) (rev (qlist (sw s) Queued))) in
    map tid (tasks s') = map tid (tasks s) ++ started ∧
    rev (qlist (sw s') Queued) = filter (λ id, id ∉ started) (rev (qlist (sw s) Queued)).
  Proof. exact (tick_order prof sched name clock rdy es). Qed.

  (** C15, bounded arrivals: a waiting job that is due from now on is started once the number of ticks with a
      free slot reaches the number of waiting ids plus arrivals.  Missing: unbounded arrivals, for
      which it is false. *)
  Theorem C15_no_starvation_partial es0 es id j :
    let s := after es0 in
    ok_hist initial (es0 ++ es) → id ∈ qlist (sw s) Queued → stored (sw s) id = Some j →
    (∀ k, (reads (sw s) <= k)%nat → due j (clock k)) → Forall (λ e, ¬ submits id e ∧ e ≠ EvCancel id) es →
    Z.of_nat (length (qlist (sw s) Queued) + arrivals prof sched name clock s es) <= i32_max →
    (length (qlist (sw s) Queued) + arrivals prof sched name clock s es
       <= free_ticks prof sched name clock s es)%nat →
    ∃ es1 es2, es = es1 ++ es2 ∧ id ∈ qlist (sw (after (es0 ++ es1))) Running.
  Proof. exact (no_starvation_after prof sched name clock es0 es id j). Qed.

  (** C50: the change itself touches the configuration only; the configuration then stays until the
      next change or start; with limit 0 ticks do nothing. *)
  Theorem C50_config (s : sys) c es :
    alive s = true →
    Forall (λ e, match e with EvConfig _ | EvStart | EvCrashIn EvStart _ => False | _ => True end) es →
    let s1 := (step s (EvConfig c)).1 in
    (sw s1 = sw s ∧ tasks s1 = tasks s ∧ runs s1 = runs s ∧ alive s1 = true) ∧
    cfg (go s1 es) = c ∧
    (max_processing_jobs c = 0%nat → alive (go s1 es) = true → (step (go s1 es) EvTick).1 = go s1 es).
  Proof. exact (config_applies prof sched name clock s c es). Qed.
  (** Every later tick starts at most as many jobs as the new limit leaves free slots, and that many if
      enough jobs are due (C12 with the new configuration). *)
  Theorem C50_next_ticks es0 c es :
    let s := after (es0 ++ EvConfig c :: es) in let s' := after (es0 ++ EvConfig c :: es ++ [EvTick]) in
    ok_hist initial (es0 ++ EvConfig c :: es) → alive (after es0) = true → alive s = true →
    Forall (λ e, match e with EvConfig _ | EvStart | EvCrashIn EvStart _ => False | _ => True end) es →
    Z.of_nat (length (qlist (sw s) Queued)) <= i32_max →
    ∃ new : list (job M), tasks s' = tasks s ++ map (λ j, Task j j Spawned) new ∧
      (length new <= max_processing_jobs c - length (qlist (sw s) Running))%nat ∧
      (length new = max_processing_jobs c - length (qlist (sw s) Running) ∨
       ∀ id, id ∈ qlist (sw s') Queued → ∃ j k, stored (sw s) id = Some j ∧
         (reads (sw s) <= k < reads (sw s'))%nat ∧ ¬ due j (clock k))%nat.
  Proof. exact (config_ticks prof sched name clock es0 c es). Qed.
End theorems.

Notation dj := demo_job.

(** ** Refutations *)

Definition pp_ids : list string :=
  ["00"; "01"; "02"; "03"; "04"; "05"; "06"; "07"; "08"; "09"; "10"; "11"; "12"; "13"; "14"; "15";
   "16"; "17"; "18"; "19"; "20"; "21"; "22"; "23"; "24"; "25"; "26"; "27"; "28"; "29"].
Definition pp_submit (ids : list string) : list (event Z) :=
  map (λ id, EvEnqueue (dj id 0) new_re_run) ids.
Definition submitted (es : list (event Z)) : list string :=
  omap (λ e, match e with EvEnqueue j _ => Some (jid j) | _ => None end) es.

(** C14: thirty jobs, all due from the beginning, five slots.  After the five oldest the next ones to
    run are the 21st to 25th. *)
Definition c14_es : list (event Z) :=
  [EvStart; EvConfig (WqConfig 1 5)] ++ pp_submit pp_ids ++ [EvTick] ++
  concat (repeat (demo_polls 0 (demo_ok 0)) 5) ++ [EvTick] ++
  concat (map (λ i, [EvTask i (demo_ok 0); EvTask i (demo_ok 0)]) [0%nat; 1%nat; 2%nat; 3%nat; 4%nat]).
Theorem C14_fifo_refuted :
  Forall plain_event c14_es ∧ submitted c14_es = pp_ids ∧
  map jid (runs (demo_after c14_es)) = ["00"; "01"; "02"; "03"; "04"; "20"; "21"; "22"; "23"; "24"] ∧
  "05" ∈ qlist "q" (sw (demo_after c14_es)) Queued.
Proof.
  split; [repeat constructor|]. split; [by vm_compute|]. split; [by vm_compute|].
  apply (bool_decide_unpack _). by vm_compute.
Qed.

(** C15: 21 waiting jobs, one slot, one arrival per execution.  The jobs "01" to "19" wait for ever: for
    every n there is a continuation with n ticks that find a free slot and n executions, none of
    them of these jobs, which are due at all times. *)
Definition c15_es : list (event Z) :=
  [EvStart; EvConfig (WqConfig 1 1)] ++ pp_submit (take 21 pp_ids).
Definition c15_starved : list string := take 19 (drop 1 pp_ids).
Theorem C15_starvation_refuted n :
  ∃ es, Forall plain_event (c15_es ++ es) ∧
    free_ticks Debug demo_sched "q" demo_clock (demo_after c15_es) es = n ∧
    length (runs (demo_after (c15_es ++ es))) = n ∧
    ∀ id, id ∈ c15_starved →
      id ∈ qlist "q" (sw (demo_after c15_es)) Queued ∧
      id ∈ qlist "q" (sw (demo_after (c15_es ++ es))) Queued ∧
      runs_of id (demo_after (c15_es ++ es)) = [] ∧
      ∃ j, stored (M := Z) (sw (demo_after c15_es)) id = Some j ∧ ∀ now, due j now.
Proof.
  exists (rounds (demo_ok 0) (λ id, dj id 0) n "00" "20").
  assert (cyc "q" (demo_after c15_es) "00" "20" c15_starved) as Hc.
  { split; [apply all_at_after, plain_ok; repeat constructor|].
    split; [by vm_compute|]. split; [by vm_compute|]. split; [by vm_compute|]. split; [by vm_compute|].
    split; [by vm_compute|]. split; [by vm_compute|].
    apply simple_all. by vm_compute. }
  destruct (starve Debug demo_sched "q" demo_clock (demo_after c15_es) (demo_ok 0) (λ id, dj id 0) n
    "00" "20" c15_starved Hc eq_refl) as ((rs & H1 & H2 & H3) & H4 & H5 & H6); [done|].
  assert (runs (demo_after c15_es) = []) as Hr by by vm_compute.
  rewrite Hr in H2. cbn [app] in H2.
  assert (demo_after (c15_es ++ rounds (demo_ok 0) (λ id, dj id 0) n "00" "20") =
    sys_run Debug demo_sched "q" (mem_h demo_clock) (demo_after c15_es)
      (rounds (demo_ok 0) (λ id, dj id 0) n "00" "20")) as Hgo.
  { unfold demo_after, after. apply go_app. }
  rewrite Hgo. split; [|split; [done|split; [by rewrite H2|]]].
  - apply Forall_app. split; [repeat constructor|]. clear. generalize "00", "20".
    induction n as [|n IH]; intros y z; cbn [rounds]; [constructor|].
    apply Forall_app. split; [repeat constructor|apply IH].
  - intros id Hin. destruct (H6 id Hin) as (Hq & Hy & Hz). 
    assert (id ∈ qlist "q" (sw (demo_after c15_es)) Queued) as Hq0.
    { destruct Hc as (_ & _ & _ & _ & _ & Eq & _). rewrite (Permutation_rev (qlist _ _ _)), Eq. right. apply elem_of_app. by left. }
    split; [done|]. split; [done|]. split.
    + unfold runs_of. rewrite H2. clear -H3 Hy Hz. induction rs as [|r rs IH]; [done|].
      rewrite filter_cons, decide_False.
      * apply IH. intros r' Hr'. apply H3. set_solver.
      * intros <-. destruct (H3 r ltac:(set_solver)); done.
    + destruct Hc as (_ & _ & _ & _ & _ & _ & _ & Hs). destruct (Hs id Hq0) as (j & Hj & Ht & _).
      exists j. split; [done|]. intros now. unfold due. by rewrite Ht.
Qed.

(** ** Concrete cases *)
Definition pp_late (id : string) (t : time) : job Z :=
  set_ctx (dj id 0) (set_jtype (ctx (dj id 0)) (ScheduledAt t)).
Definition pp_1 : list (event Z) :=
  [EvStart; EvConfig (WqConfig 1 3); EvEnqueue (dj "a" 1) new_re_run;
   EvEnqueue (pp_late "b" 1000000000) new_re_run; EvEnqueue (dj "c" 1) new_re_run;
   EvEnqueue (dj "d" 1) new_re_run; EvEnqueue (dj "e" 1) new_re_run].
Example C10_tick_example :
  let s := demo_after (pp_1 ++ [EvTick]) in
  alive s = true ∧ length (qlist "q" (sw s) Running) = 3%nat ∧ max_processing_jobs (cfg s) = 3%nat ∧
  qlist "q" (sw s) Queued = ["e"; "b"].
Proof. vm_compute; repeat split. Qed.
Example C12_example :
  (map tid (tasks (demo_after (pp_1 ++ [EvTick]))) = ["a"; "c"; "d"]) ∧
  qlist "q" (sw (demo_after (pp_1 ++ [EvTick]))) Queued = ["e"; "b"] ∧
  free_slots "q" (demo_after pp_1) = 3%nat ∧
  let es := pp_1 ++ [EvConfig (WqConfig 1 9); EvTick] in
  map tid (tasks (demo_after es)) = ["a"; "c"; "d"; "e"] ∧
  qlist "q" (sw (demo_after es)) Queued = ["b"].
Proof. vm_compute; repeat split. Qed.
Example C13_example :
  length (qlist "q" (sw (demo_after (pp_submit pp_ids))) Queued) = 0%nat ∧
  length (qlist "q" (sw (demo_after ([EvStart] ++ pp_submit pp_ids))) Queued) = 30%nat.
Proof. vm_compute; repeat split. Qed.
(** Here the due ids are all but "b". *)
Example C14_example :
  rev (qlist "q" (sw (demo_after pp_1)) Queued) = ["a"; "b"; "c"; "d"; "e"] ∧
  take (free_slots "q" (demo_after pp_1))
    (filter (λ id, negb (String.eqb id "b") = true) (rev (qlist "q" (sw (demo_after pp_1)) Queued)))
  = ["a"; "c"; "d"].
Proof. vm_compute; repeat split. Qed.
(** Job "25" of thirty, one slot: it needs at most 30 ticks with a free slot; here it has 30. *)
Definition c15_pos : list (event Z) :=
  concat (repeat (EvTick :: demo_polls 0 (demo_ok 0)) 30).
Example C15_example :
  let es0 := [EvStart; EvConfig (WqConfig 1 1)] ++ pp_submit pp_ids in
  let s := demo_after es0 in
  length (qlist "q" (sw s) Queued) = 30%nat ∧ arrivals Debug demo_sched "q" demo_clock s c15_pos = 0%nat ∧
  free_ticks Debug demo_sched "q" demo_clock s c15_pos = 30%nat ∧
  length (runs (demo_after (es0 ++ c15_pos))) = 30%nat.
Proof. vm_compute; repeat split. Qed.
Example C50_example :
  let es := pp_1 ++ [EvConfig (WqConfig 1 1)] in
  length (tasks (demo_after (es ++ [EvTick]))) = 1%nat ∧
  length (tasks (demo_after (pp_1 ++ [EvTick; EvConfig (WqConfig 1 0); EvTick]))) = 3%nat.
Proof. vm_compute; repeat split. Qed.

Print Assumptions C10_tick_at_limit.
Print Assumptions C12_work_conserving.
Print Assumptions C13_picking_terminates.
Print Assumptions C14_fifo_partial.
Print Assumptions C15_no_starvation_partial.
Print Assumptions C50_config.
Print Assumptions C50_next_ticks.
Print Assumptions C14_fifo_refuted.
Print Assumptions C15_starvation_refuted.
