(** Races that go wrong. *)
From Verif Require Import Spec SpecRace BackendFacts WorldFacts RaceFacts RaceLoop Demo.

(** *** A picking loop without end *)
Definition go (i n : nat) : list (race_event Z) := repeat (RCall i FOk) n.
Definition two_after : nat → list (race_event Z) → race Z world :=
  race_after (λ _, Debug) (λ _, demo_sched) (λ _, "q"%string) (λ _, demo_clock).
Definition spin_before : list (race_event Z) :=
  RBegin 0 EvStart 0 :: go 0 9 ++ RBegin 1 EvStart 0 :: go 1 9
  ++ RBegin 0 (EvEnqueue (demo_job "a" 0) new_re_run) 0 :: go 0 9.
(** Process 0 counts one waiting id, process 1 picks it. *)
Definition spin (fuel : nat) : list (race_event Z) :=
  spin_before ++ RBegin 0 EvTick fuel :: go 0 2 ++ RBegin 1 EvTick 0 :: go 1 19.

Section spin.
  Notation mem := (λ _ : nat, mem_h demo_clock).
  Notation rstep := (race_step (λ _, Debug) (λ _, demo_sched) (λ _, "q"%string) mem).
  Implicit Types r : race Z world.
  (** Process 0 is in the loop with one id to look at and nothing to be found. *)
  Definition spins (fuel : nat) r : Prop :=
    ql (st (r_world r)) (format_queue_name "q" Queued) = [] ∧
    ∃ c ts total (F : _ → prog (list (task Z))) G, (0 < total)%nat ∧
      r_procs r !! 0%nat = Some (Proc c ts true (Some (EvTick,
        bind (bind (pick_loop Debug "q" (S fuel) total [] 1) F) G))).
  Lemma spins_step fuel r : spins (S fuel) r → spins fuel (rstep r (RCall 0 FOk)).
  Proof.
    intros (Hq & c & ts & total & F & G & Ht & Hp). assert (0 < length (r_procs r))%nat as Hlt by by eapply lookup_lt_Some.
    cbn [race_step]. rewrite Hp. unfold race_call.
    change (p_now _) with (Some (EvTick (M := Z), bind (bind (pick_loop Debug "q" (S (S fuel)) total [] 1) F) G)).
    remember (S fuel) as n eqn:En. cbn [pick_loop bind do].
    unfold call_h. cbn -[mem_get BATCH pick_loop bind]. rewrite mem_get_spec, Hq. cbn -[pick_loop bind].
    split; [done|]. exists c, ts, total, F, G. split; [done|]. cbn [r_procs]. rewrite list_lookup_insert by done. subst n.
    cbn [bind]. change (i32_norm Debug 1) with (Some 1). cbn [bind pick_batch length].
    destruct (Nat.leb_spec total 0) as [|_]; [lia|]. done.
  Qed.
  Lemma spins_calls n fuel r :
    spins (n + fuel) r → spins fuel (race_run (λ _, Debug) (λ _, demo_sched) (λ _, "q"%string) mem r (go 0 n)).
  Proof.
    revert r. induction n as [|n IH]; intros r H; [done|]. cbn [go repeat race_run fold_left]. by apply IH, spins_step.
  Qed.
  Lemma others_keep r xs :
    Forall (λ x, match x with RBegin k _ _ | RCall k _ | RDie k => k ≠ 0%nat end) xs →
    r_procs (fold_left rstep xs r) !! 0%nat = r_procs r !! 0%nat.
  Proof.
    intros H. revert r. induction H as [|x xs Hx H IH]; intros r; [done|]. cbn [fold_left]. rewrite IH.
    destruct x as [k e' n|k f|k]; cbn [race_step]; (destruct (r_procs r !! k) as [p'|] eqn:E; [|done]).
    - cbn. by rewrite list_lookup_insert_ne.
    - unfold race_call. destruct (p_now p') as [[e0 c0]|]; [|done]. destruct c0 as [[[[c0 ts] js] a]| | |X e' g];
        [..|destruct (call_h mem k f X e' (r_world r))]; cbn; by rewrite list_lookup_insert_ne.
    - cbn. by rewrite list_lookup_insert_ne.
  Qed.
  Lemma two_counts fuel r :
    r_procs r !! 0%nat = Some (Proc wq_config_default [] true None) →
    length (ql (st (r_world r)) (format_queue_name "q" Running)) = 0%nat →
    length (ql (st (r_world r)) (format_queue_name "q" Queued)) = 1%nat →
    ∃ (F : _ → prog (list (task Z))) G, r_procs (fold_left rstep (RBegin 0 EvTick fuel :: go 0 2) r) !! 0%nat =
      Some (Proc wq_config_default [] true (Some (EvTick, bind (bind (pick_loop Debug "q" (fuel + 2) 20 [] 1) F) G))).
  Proof.
    intros Hp H1 H2. assert (0 < length (r_procs r))%nat as Hlt by by eapply lookup_lt_Some.
    cbn [fold_left go repeat race_step]. rewrite Hp. unfold race_begin. cbn [p_now p_alive].
    unfold put. cbn [r_procs]. rewrite list_lookup_insert by done.
    unfold race_call at 2. cbn [p_now step_of do_tick pick_jobs bind do]. unfold call_h. cbn -[mem_count try_pick].
    rewrite mem_count_spec, H1. rewrite list_lookup_insert by by rewrite insert_length.
    unfold race_call. cbn [p_now]. cbn -[mem_count pick_loop Nat.add format_queue_name]. rewrite mem_count_spec, H2.
    rewrite list_lookup_insert by by rewrite !insert_length. eexists _, _. reflexivity.
  Qed.
  Lemma spin_starts fuel : spins (S fuel) (two_after 2 (spin fuel)).
  Proof.
    assert (two_after 2 (spin fuel) = fold_left rstep (RBegin 1 EvTick 0 :: go 1 19)
      (fold_left rstep (RBegin 0 EvTick fuel :: go 0 2) (two_after 2 spin_before))) as Hspin.
    { unfold spin, two_after, race_after, race_run. rewrite fold_left_app. by rewrite app_comm_cons, fold_left_app. }
    assert (ql (st (r_world (two_after 2 (spin fuel)))) (format_queue_name "q" Queued) = []) as Hq by by vm_compute.
    destruct (two_counts fuel (two_after 2 spin_before)) as (F & G & E); [by vm_compute..|].
    split; [exact Hq|]. rewrite Hspin. clear Hq Hspin.
    set (r1 := fold_left rstep (RBegin 0 EvTick fuel :: go 0 2) (two_after 2 spin_before)) in *. clearbody r1.
    rewrite others_keep by (repeat constructor; lia).
    exists wq_config_default, [], 20%nat, F, G. split; [lia|]. rewrite E.
    by replace (fuel + 2)%nat with (S (S fuel)) by lia.
  Qed.
End spin.
Lemma two_after_app n xs ys :
  two_after n (xs ++ ys) =
  race_run (λ _, Debug) (λ _, demo_sched) (λ _, "q"%string) (λ _ : nat, mem_h demo_clock) (two_after n xs) ys.
Proof. apply fold_left_app. Qed.
Lemma spin_for_ever :
  (∀ fuel, Forall (λ x, match x with RCall _ f => f = FOk | RDie _ => False | RBegin _ _ _ => True end) (spin fuel)) ∧
  (∀ fuel fuel', Forall2 same_but_fuel (spin fuel) (spin fuel')) ∧
  ∀ n fuel, (n <= fuel)%nat →
    let r := two_after 2 (spin fuel ++ repeat (RCall 0 FOk) n) in
    qlist "q" (r_world r) Queued = [] ∧ ¬ idle r 0 ∧ ¬ exhausted r 0.
Proof.
  split; [|split].
  - intros fuel. unfold spin, spin_before, go. cbn [app repeat]. repeat (apply List.Forall_cons; [done|]). constructor.
  - intros fuel fuel'. unfold spin, spin_before, go. cbn [app repeat].
    repeat (apply List.Forall2_cons; [done|]). constructor.
  - intros n fuel Hn. cbv zeta.
    assert (spins (S fuel - n) (two_after 2 (spin fuel ++ go 0 n))) as H.
    { rewrite two_after_app. apply (spins_calls n).
      replace (n + (S fuel - n))%nat with (S fuel) by lia. apply spin_starts. }
    revert H. change (repeat (RCall 0 FOk) n) with (go 0 n). generalize (two_after 2 (spin fuel ++ go 0 n)) as r.
    intros r (Hq & c & ts & total & F & G & Ht & Hp). split; [exact Hq|]. split.
    + intros (p & E & H). rewrite Hp in E. by injection E as <-.
    + intros (p & e & E & H). rewrite Hp in E. injection E as <-. cbn [p_now] in H.
      change (pick_loop Debug "q" (S (S fuel - n)) total [] 1) with
        (let? ids := do (QGet (format_queue_name "q" Queued) BATCH Back) in
         match i32_norm Debug (1 - Z.of_nat (length ids)) with
         | None => Panic
         | Some cursor' =>
             let? ready' := pick_batch (M := Z) "q" total ids [] in
             if (total <=? length ready')%nat then Ret (Ok ready')
             else if cursor' <=? 0 then Ret (Ok ready')
             else pick_loop Debug "q" (S fuel - n) total ready' cursor'
         end) in H. cbn [bind do] in H. discriminate H.
Qed.

Lemma not_idle (r : race Z world) i :
  match r_procs r !! i with Some p => match p_now p with None => true | _ => false end | None => false end = false →
  ¬ idle r i.
Proof. intros H (p & E & Hn). by rewrite E, Hn in H. Qed.
