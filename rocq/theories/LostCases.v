(** A cancellation in the middle of another process's tick. *)
From Verif Require Import Spec SpecRace SpecLost BackendFacts RaceCases RaceSim RaceLost Demo.

(** Process 0 is a worker with one slot, process 1 a client.  The worker has read the waiting ids and the
    record of "a" when the client cancel_alone "a". *)
Definition cut_sub : list (race_event Z) :=
  RBegin 0 EvStart 0 :: go 0 9 ++ RBegin 0 (EvConfig (WqConfig (100 * 1000000) 1)) 0 :: go 0 1
  ++ RBegin 1 EvStart 0 :: go 1 9
  ++ RBegin 1 (EvEnqueue (demo_job "a"%string 1) new_re_run) 0 :: go 1 9
  ++ RBegin 1 (EvEnqueue (demo_job "b"%string 2) new_re_run) 0 :: go 1 9.
Definition cut_cancel : list (race_event Z) :=
  cut_sub ++ RBegin 0 EvTick 0 :: go 0 4 ++ cancel_alone 1 "a"%string.
Definition cut_rest : list (race_event Z) :=
  go 0 9 ++ concat (repeat (RBegin 0 (EvTask 0 (demo_ok 1)) 0 :: go 0 9) 4).

(** An id that all lists lack, but one. *)
Definition lacks (key id : string) (w : world) : bool :=
  forallb (λ x : string * list string, negb (bool_decide (id ∈ x.2)) || bool_decide (x.1 = key))
    (map_to_list (queues (st w))).
Lemma lacks_ok key id w q : lacks key id w = true → format_queue_name q Queued ≠ key → id ∉ qlist q w Queued.
Proof.
  intros H Hk Hin. unfold qlist in Hin. destruct (queues (st w) !! format_queue_name q Queued) as [l|] eqn:E.
  2:{ by apply elem_of_nil in Hin. }
  unfold lacks in H. rewrite forallb_forall in H. specialize (H (format_queue_name q Queued, l)).
  cbn in H, Hin. rewrite <-elem_of_list_In, elem_of_map_to_list in H. specialize (H E).
  apply orb_true_iff in H as [H|H].
  - apply negb_true_iff, bool_decide_eq_false in H. done.
  - by apply bool_decide_eq_true in H.
Qed.
(** No process is doing a step or has a task. *)
Definition resting (r : race Z world) : bool :=
  forallb (λ p, match p_now p, p_tasks p with None, [] => true | _, _ => false end) (r_procs r).
Lemma resting_ok id r : resting r = true → at_rest id r.
Proof.
  intros H i p Hp. unfold resting in H. rewrite forallb_forall in H. specialize (H p).
  rewrite <-elem_of_list_In in H. specialize (H (elem_of_list_lookup_2 _ _ _ Hp)).
  destruct (p_now p); [done|]. by destruct (p_tasks p).
Qed.
Lemma cut_b zs :
  Forall (alone "b" true) zs → runs_in "b" (two_after 2 (cut_cancel ++ cut_rest ++ zs)) = [].
Proof.
  intros H. rewrite app_assoc.
  transitivity (runs_in "b" (two_after 2 (cut_cancel ++ cut_rest))); [|by vm_compute].
  assert (resting (two_after 2 (cut_cancel ++ cut_rest)) = true) as H1 by by vm_compute.
  assert (lacks (format_queue_name "q" Running) "b" (r_world (two_after 2 (cut_cancel ++ cut_rest))) = true) as H2 by by vm_compute.
  assert (match stored (M := Z) (r_world (two_after 2 (cut_cancel ++ cut_rest))) "b" with
      Some j => is_done j | None => false end = false) as H3 by by vm_compute.
  revert H1 H2 H3. generalize (cut_cancel ++ cut_rest). intros ys H1 H2 H3.
  apply (lost_after _ _ _ _ 2 ys "b" true); [by apply resting_ok|intros q; eapply lacks_ok; [exact H2|]; by intros [_ ?]%queue_key_inj| |done].
  intros _ j Hj. unfold two_after in H3. by rewrite Hj in H3.
Qed.
Lemma cut_overlap :
  ∃ xs ys : list (race_event Z), ∃ ja jb : job Z,
    let r := two_after 2 xs in let r' := two_after 2 (xs ++ ys) in
    jid ja = "a"%string ∧ jid jb = "b"%string ∧
    (1%nat, EvEnqueue ja new_re_run, RUnit (Ok tt)) ∈ r_answers r ∧
    (1%nat, EvEnqueue jb new_re_run, RUnit (Ok tt)) ∈ r_answers r ∧
    (1%nat, EvCancel "a", RUnit (Ok tt)) ∈ r_answers r ∧
    option_map (λ j : job Z, jstatus (ctx j)) (stored (r_world r) "a") = Some Canceled ∧
    "a"%string ∉ qlist "q" (r_world r) Queued ∧ r_runs r = [] ∧
    Forall (alone "a" false) ys ∧ map (jid ∘ snd) (r_runs r') = ["a"%string] ∧
    option_map (λ j : job Z, jstatus (ctx j)) (stored (r_world r') "b") = Some Queued ∧
    qlist "q" (r_world r') Running = ["b"%string] ∧
    ∀ zs, Forall (alone "b" true) zs → runs_in "b" (two_after 2 (xs ++ ys ++ zs)) = [].
Proof.
  exists cut_cancel, cut_rest, (demo_job "a" 1), (demo_job "b" 2). cbv zeta.
  split; [done|]. split; [done|].
  split; [vm_compute; do 3 right; by left|]. split; [vm_compute; do 4 right; by left|]. split; [vm_compute; do 5 right; by left|].
  split; [by vm_compute|]. split; [apply (lacks_ok (format_queue_name "q" Running)); [by vm_compute|]; by intros [_ ?]%queue_key_inj|]. split; [by vm_compute|].
  split; [unfold cut_rest, go; cbn [app repeat concat]; repeat (apply List.Forall_cons; [done|]); constructor|].
  split; [by vm_compute|]. split; [by vm_compute|]. split; [by vm_compute|]. exact cut_b.
Qed.
