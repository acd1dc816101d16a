(** Histories of processes of which only one at a time picks jobs, and a cancellation during a tick. *)
From Verif Require Import Spec SpecRace SpecLost SpecLocked BackendFacts RaceFacts RaceCases Demo.

(** *** All states of a history *)
Notation two_step := (race_step (λ _, Debug) (λ _, demo_sched) (λ _, "q"%string) (λ _, mem_h demo_clock)).
Fixpoint walk (P : race Z world → bool) (r : race Z world) (xs : list (race_event Z)) : bool :=
  P r && match xs with [] => true | x :: xs' => walk P (two_step r x) xs' end.
Lemma walk_ok P xs r ys zs :
  walk P r xs = true → xs = ys ++ zs → P (fold_left two_step ys r) = true.
Proof.
  revert r xs. induction ys as [|y ys IH]; intros r xs H E.
  - destruct xs; cbn in H; by apply andb_true_iff in H as [H _].
  - destruct xs as [|x xs]; [done|]. injection E as -> E. cbn in H. apply andb_true_iff in H as [_ H].
    by apply (IH _ xs).
Qed.
Lemma two_walk P n ys xs zs zs' :
  walk P (two_after n ys) xs = true → xs = zs ++ zs' → P (two_after n (ys ++ zs)) = true.
Proof.
  intros H E. apply (walk_ok P xs _ zs zs' H) in E. unfold two_after, race_after, race_run. by rewrite fold_left_app.
Qed.
Definition does (f : event Z → bool) (r : race Z world) (i : nat) : bool :=
  match r_procs r !! i with
  | Some p => match p_now p with Some (e, _) => f e | None => false end
  | None => false
  end.
Definition is_pick (e : event Z) : bool := match e with EvTick | EvStart => true | _ => false end.
Definition is_cancel (e : event Z) : bool := match e with EvCancel _ => true | _ => false end.
Definition apart (f : event Z → bool) (r : race Z world) : bool :=
  let is := seq 0 (length (r_procs r)) in
  forallb (λ i, forallb (λ k, bool_decide (i = k) || negb (does is_pick r i && does f r k)) is) is.
Lemma apart_ok f r i k p p' :
  apart f r = true → r_procs r !! i = Some p → r_procs r !! k = Some p' → picks p →
  match p_now p' with Some (e, _) => f e = true | None => False end → i = k.
Proof.
  intros H Hp Hp' Hpick Hf. unfold apart in H. cbv zeta in H. rewrite forallb_forall in H.
  specialize (H i). rewrite in_seq in H. rewrite forallb_forall in H.
  pose proof (lookup_lt_Some _ _ _ Hp). pose proof (lookup_lt_Some _ _ _ Hp').
  assert (i ∈ seq 0 (length (r_procs r)) ∧ k ∈ seq 0 (length (r_procs r))) as [_ Hk] by (rewrite !elem_of_seq; lia).
  apply elem_of_list_In in Hk. specialize (H ltac:(lia) k Hk). apply orb_true_iff in H as [H|H].
  - by apply bool_decide_eq_true in H.
  - exfalso. unfold does in H. rewrite Hp, Hp' in H. unfold picks in Hpick.
    destruct (p_now p) as [[e c]|]; [|done]. destruct (p_now p') as [[e' c']|]; [|done].
    rewrite Hf, andb_true_r in H. by destruct e.
Qed.
Lemma apart_locked r : apart (λ e, is_pick e || is_cancel e) r = true → locked r.
Proof.
  intros Ha i k p p' Hp Hp' Hpick Hor. eapply apart_ok; [exact Ha|exact Hp|exact Hp'|exact Hpick|].
  unfold picks, cancelling in Hor. destruct (p_now p') as [[e c]|]; [|cbn in Hor; tauto].
  destruct e; cbn in Hor; first [done|tauto].
Qed.
Lemma locked_walk n xs :
  walk (apart (λ e, is_pick e || is_cancel e)) (race_init world_empty n) xs = true →
  always_locked (λ _, Debug) (λ _, demo_sched) "q" (λ _, demo_clock) n xs.
Proof. intros H ys zs E. by apply apart_locked, (walk_ok _ _ _ _ _ H E). Qed.

(** *** A cancellation in the middle of a tick *)
(** "a" is not due before long.  Process 0, with one slot, has read the waiting ids when process 1 cancels
    "a". *)
Definition cc_xs : list (race_event Z) :=
  RBegin 0 EvStart 0 :: go 0 9 ++ RBegin 0 (EvConfig (WqConfig (100 * 1000000) 1)) 0 :: go 0 1
  ++ RBegin 1 EvStart 0 :: go 1 9
  ++ RBegin 1 (EvEnqueue (job_schedule_at (demo_job "a" 1) 1000000000000) new_re_run) 0 :: go 1 9
  ++ RBegin 1 (EvEnqueue (demo_job "b" 2) new_re_run) 0 :: go 1 9
  ++ RBegin 1 (EvEnqueue (demo_job "c" 3) new_re_run) 0 :: go 1 9
  ++ RBegin 0 EvTick 0 :: go 0 3 ++ cancel_alone 1 "a" ++ go 0 20
  ++ RBegin 1 EvTick 0 :: go 1 20.

(** *** One tick at a time *)
Definition both_go (n : nat) : list (race_event Z) := concat (repeat [RCall 0 FOk; RCall 1 FOk] n).
(** Both processes submit at the same time; while process 0, with two slots, ticks, process 1 submits
    "c". *)
Definition lk_pick : list (race_event Z) :=
  RBegin 0 EvStart 0 :: go 0 9 ++ RBegin 1 EvStart 0 :: go 1 9
  ++ RBegin 0 (EvConfig (WqConfig (100 * 1000000) 2)) 0 :: go 0 1
  ++ [RBegin 0 (EvEnqueue (demo_job "a" 1) new_re_run) 0; RBegin 1 (EvEnqueue (demo_job "b" 2) new_re_run) 0]
  ++ both_go 9
  ++ [RBegin 0 EvTick 0; RBegin 1 (EvEnqueue (demo_job "c" 3) new_re_run) 0] ++ both_go 9 ++ go 0 12.
(** While process 1 ticks, process 0 begins to execute "a". *)
Definition lk_more : list (race_event Z) :=
  lk_pick ++ [RBegin 1 EvTick 0; RBegin 0 (EvTask 0 (demo_ok 1)) 0] ++ both_go 12.
(** The same, but the move of "c" fails at the storage or loses its answer; the tick ends, process 1 dies. *)
Definition lk_bad (f : fault) : list (race_event Z) :=
  lk_pick ++ [RBegin 1 EvTick 0; RBegin 0 (EvTask 0 (demo_ok 1)) 0] ++ both_go 8 ++ RCall 1 f :: both_go 5 ++ [RDie 1].

(** Both submit, "d" comes during the first tick; the processes tick in turns. *)
Definition lk_sub : list (race_event Z) :=
  RBegin 0 EvStart 0 :: go 0 9 ++ RBegin 1 EvStart 0 :: go 1 9
  ++ RBegin 0 (EvConfig (WqConfig (100 * 1000000) 1)) 0 :: go 0 1
  ++ [RBegin 0 (EvEnqueue (demo_job "a" 1) new_re_run) 0; RBegin 1 (EvEnqueue (demo_job "b" 2) new_re_run) 0]
  ++ both_go 9 ++ RBegin 1 (EvEnqueue (demo_job "c" 3) new_re_run) 0 :: go 1 9.
Definition lk_turns : list (race_event Z) :=
  [RBegin 0 EvTick 0; RBegin 1 (EvEnqueue (demo_job "d" 4) new_re_run) 0] ++ both_go 9 ++ go 0 20
  ++ concat (repeat (RBegin 1 EvTick 0 :: go 1 30) 4).

(** *** Counting does not fail *)
Definition count_kept (r : race Z world) (x : race_event Z) : bool :=
  match x with
  | RCall _ FOk => true
  | RCall i _ => match r_procs r !! i with
                 | Some p => match p_now p with Some (_, Eff e _) => negb (is_count e) | _ => true end
                 | None => true
                 end
  | _ => true
  end.
Lemma count_kept_ok r x : count_kept r x = true → counts_ok r x.
Proof.
  destruct x as [| i f |]; [done| |done]. intros H. destruct f; [by left|right|right];
    intros p ev X e k Hp Hn; cbn in H; rewrite Hp, Hn in H; by apply negb_true_iff in H.
Qed.
Fixpoint all_along (f : race Z world → race_event Z → bool) (r : race Z world) (xs : list (race_event Z)) : bool :=
  match xs with [] => true | x :: xs' => f r x && all_along f (two_step r x) xs' end.
Lemma all_along_ok (f : race Z world → race_event Z → bool) (P : race Z world → race_event Z → Prop) xs r :
  (∀ r x, f r x = true → P r x) → all_along f r xs = true →
  ralong (λ _, Debug) (λ _, demo_sched) (λ _, "q"%string) (λ _, demo_clock) P r xs.
Proof.
  intros HP. revert r. induction xs as [|x xs IH]; intros r H; [done|]. cbn in H. apply andb_true_iff in H as [H1 H2].
  split; [by apply HP|by apply IH].
Qed.
Definition counts_kept := all_along count_kept.
Lemma counts_kept_ok xs r :
  counts_kept r xs = true → ralong (λ _, Debug) (λ _, demo_sched) (λ _, "q"%string) (λ _, demo_clock) counts_ok r xs.
Proof. apply all_along_ok, count_kept_ok. Qed.

(** *** Nothing fails and nobody dies *)
Definition is_up (p : proc Z) : bool := p_alive p || match p_now p with Some _ => true | None => false end.
Lemma is_up_ok p : is_up p = true ↔ up p.
Proof.
  unfold is_up, up. destruct (p_alive p), (p_now p) as [?|]; cbn; split; try by auto.
  all: intros [H|H]; done.
Qed.
Definition still_up (r : race Z world) (x : race_event Z) : bool :=
  match x with RCall _ (FBefore | FAfter) => false | _ => true end &&
  forallb (λ i, match r_procs r !! i with
                | Some p => negb (is_up p) || match r_procs (two_step r x) !! i with Some p' => is_up p' | None => false end
                | None => true
                end) (seq 0 (length (r_procs r))).
Lemma still_up_ok r x :
  still_up r x = true → no_failure (λ _, Debug) (λ _, demo_sched) "q" (λ _, demo_clock) r x.
Proof.
  intros H. unfold still_up in H. apply andb_true_iff in H as [H1 H2]. split.
  - destruct x as [|? []|]; done.
  - intros i p Hp Hu. rewrite forallb_forall in H2. specialize (H2 i). rewrite in_seq, Hp in H2.
    pose proof (lookup_lt_Some _ _ _ Hp). specialize (H2 ltac:(lia)). apply is_up_ok in Hu. rewrite Hu in H2. cbn [negb orb] in H2.
    destruct (r_procs (two_step r x) !! i) as [p'|] eqn:E; [|done]. exists p'. split; [done|]. by apply is_up_ok.
Qed.

(** All of them can be read and are due. *)
Definition waits_due (id : string) (r : race Z world) : bool :=
  match stored (M := Z) (r_world r) id with Some j => match jtype (ctx j) with Normal => true | _ => false end | None => false end
  && (Z.of_nat (length (qlist "q" (r_world r) Queued)) <=? i32_max).
Lemma waits_due_ok clk id r : waits_due id r = true → due_now (M := Z) clk id (r_world r) ∧ fits "q" (r_world r).
Proof.
  unfold waits_due. intros [H1 H2]%andb_true_iff. split; [|by apply Z.leb_le in H2].
  destruct (stored (r_world r) id) as [j|] eqn:E; [|done]. exists j. split; [done|].
  intros i k _. unfold due. by destruct (jtype (ctx j)).
Qed.
(** No step begins that ends an execution, cancels or retries. *)
Definition tasks_young (r : race Z world) (x : race_event Z) : bool :=
  match x with
  | RBegin i (EvCancel _ | EvRetry _) _ => false
  | RBegin i (EvTask k _) _ =>
      match r_procs r !! i with
      | Some p => match p_tasks p !! k with Some t => negb (bool_decide (t_phase t = AfterHook)) | None => true end
      | None => true
      end
  | _ => true
  end.
Lemma tasks_young_ok id r x : tasks_young r x = true → untouched (λ _, "q"%string) "q" id r x.
Proof.
  intros H. destruct x as [i e n| |]; try done. split; [|by destruct e]. intros p Hp. cbn in H. rewrite Hp in H.
  destruct e; try done; try (by intros []). intros (t & Ht & Hph & _). rewrite Ht in H.
  by rewrite bool_decide_true in H.
Qed.
Lemma cancel_in_tick :
  Forall (λ x, match x with RCall _ f => f = FOk | RDie _ => False | RBegin _ _ _ => True end) cc_xs ∧
  NoDup (begun_ids cc_xs) ∧ Forall no_retry_job cc_xs ∧
  (∀ ys zs i k p p', cc_xs = ys ++ zs → r_procs (two_after 2 ys) !! i = Some p →
     r_procs (two_after 2 ys) !! k = Some p' → picks p → picks p' → i = k) ∧
  all_in_work (two_after 2 cc_xs) = ["b"; "b"]%string.
Proof.
  split; [|split; [|split; [|split]]].
  - unfold cc_xs, go, cancel_alone. cbn [app repeat]. repeat (apply List.Forall_cons; [done|]). constructor.
  - assert (begun_ids cc_xs = ["a"; "b"; "c"]%string) as -> by (by vm_compute). by apply (bool_decide_eq_true_1 _).
  - unfold cc_xs, go, cancel_alone. cbn [app repeat]. repeat (apply List.Forall_cons; [done|]). constructor.
  - intros ys zs i k p p' E Hp Hp' H H'.
    assert (walk (apart is_pick) (race_init world_empty 2) cc_xs = true) as Hw by by vm_compute.
    pose proof (walk_ok _ _ _ _ _ Hw E) as Ha. eapply apart_ok; [exact Ha|exact Hp|exact Hp'|exact H|].
    clear -H'. unfold picks in H'. destruct (p_now p') as [[e c]|]; [|done]. by destruct e.
  - by vm_compute.
Qed.

(** *** An endless race of one process *)
Lemma one_locked (s : nat → race_event Z) a : locked (two_after 1 (up_to s a)).
Proof.
  assert (∀ xs, length (r_procs (two_after 1 xs)) = 1%nat) as Hlen.
  { intros xs. unfold two_after. apply (ralong_inv (λ _, Debug) (λ _, demo_sched) (λ _, "q"%string) (λ _, demo_clock)
      (λ r, length (r_procs r) = 1%nat) (λ _ _, True)).
    - intros r x H _. destruct x as [i e n|i f|i]; cbn [race_step]; (destruct (r_procs r !! i) as [p|]; [|done]).
      + cbn. by rewrite insert_length.
      + unfold race_call. destruct (p_now p) as [[e [[[[c ts] js] a']| | |X e' g]]|]; [..|done];
          [| | |destruct (call_h _ i f X e' (r_world r))]; cbn; by rewrite ?insert_length.
      + cbn. by rewrite insert_length.
    - done.
    - generalize (race_init (M := Z) world_empty 1). induction xs as [|x xs IH]; intros r; [done|]. by split. }
  intros i k p p' Hi%lookup_lt_Some Hk%lookup_lt_Some _ _. rewrite Hlen in Hi, Hk. lia.
Qed.
