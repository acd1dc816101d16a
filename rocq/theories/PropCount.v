(** Payloads and run counts. *)
From Verif Require Import Spec SpecRace SpecCount CountFacts RaceCases PropRace Demo.

Section theorems.
  Context {M : Type} `{SM : Serde M} {SO : SerdeOk M}.
  (** Any number of processes, of different builds, with clocks and queue names of their own. *)
  Context (prof : nat → profile).
  Context (sched : nat → string → option (time → option time)).
  Context (name : nat → string).
  Context (clock : nat → nat → time).
  Notation race_after := (race_after prof sched name clock).
  Notation ralong := (ralong prof sched name clock).

  (** C86: in every race, whatever fails or dies, the payload of a job is what as many executions have
      made of a submitted payload as the job counts; a finished job has been executed, its last execution
      being no failure; and a failed job has been executed, its last execution being a failure or one that
      it does not count, because its end could not be written. *)
  Theorem C86_payload_count (acts : job M → user_result M → Prop) start n xs :
    ralong (acting acts start) (race_init world_empty n) xs →
    let r := race_after n xs in
    (∀ id (j : job M), stored (r_world r) id = Some j → jid j = id ∧ agrees acts start j) ∧
    (∀ i j, (i, j) ∈ r_runs r → agrees_run acts start j) ∧
    (∀ i id j, (i, EvGet id, RJob (Some j)) ∈ r_answers r → jid j = id ∧ agrees acts start j).
  Proof. exact (count_agrees prof sched name clock acts start n xs). Qed.

  (** C86: the same for user code given by its methods: each execution calls pre_execute, execute and
      post_execute once and in this order, on the payload left by the execution before, with its own
      number as run_count, and it is judged by the output of post_execute: is_failed_output is asked about it,
      and the rule for retries is retry_at if the code has its own, and goes by is_failed_output otherwise. *)
  Theorem C86_methods {O} (c : code M O) start n xs :
    ralong (coded c start) (race_init world_empty n) xs →
    let r := race_after n xs in
    (∀ id (j : job M), stored (r_world r) id = Some j → jid j = id ∧ agrees (does c) start j) ∧
    (∀ i j, (i, j) ∈ r_runs r → agrees_run (does c) start j) ∧
    (∀ i id j, (i, EvGet id, RJob (Some j)) ∈ r_answers r → jid j = id ∧ agrees (does c) start j).
  Proof. exact (count_code prof sched name clock c start n xs). Qed.
End theorems.
Print Assumptions C86_payload_count.
Print Assumptions C86_methods.

(** *** Examples *)
(** User code that adds 1, multiplies by 10, and adds its run_count; the first execution fails. *)
Definition ten : code Z nat :=
  Code _ _ (λ _ d, d + 1) (λ c d, (d * 10, run_count c)) (λ c d o, (d + Z.of_nat (run_count c), o))
    (λ _ o, (o =? 1)%nat) None.
Definition ten_fail (d : Z) : user_result Z := demo_fail ((d + 1) * 10 + 1).
Definition ten_ok (d : Z) : user_result Z := demo_ok ((d + 1) * 10 + 2).
(** Both workers execute the first attempt of "a", and both send it back; then one of them executes the
    second attempt, which the other one has no part in. *)
Definition ten_xs : list (race_event Z) :=
  pr_pick ++ poll 0 (ten_fail 1) ++ poll 1 (ten_fail 1) ++ poll 0 (ten_fail 1) ++ poll 1 (ten_fail 1)
  ++ poll 0 (ten_fail 1) ++ poll 1 (ten_fail 1) ++ poll 0 (ten_fail 1) ++ poll 1 (ten_fail 1)
  ++ RBegin 0 (EvGet "a") 0 :: go 0 5
  ++ RBegin 0 EvTick 5 :: go 0 30
  ++ concat (repeat (RBegin 0 (EvTask 1 (ten_ok 21)) 0 :: go 0 9) 4).
Definition same_result (u v : user_result Z) : bool :=
  (ur_data u =? ur_data v) && Bool.eqb (ur_failed u) (ur_failed v) &&
  match ur_retry u, ur_retry v with DefaultRetryAt b, DefaultRetryAt b' => Bool.eqb b b' | _, _ => false end.
Lemma same_result_ok u v : same_result u v = true → u = v.
Proof.
  intros H. apply andb_true_iff in H as [H H3]. apply andb_true_iff in H as [H1 H2].
  apply Z.eqb_eq in H1. apply Bool.eqb_prop in H2. destruct u as [d b [b1|]], v as [d' b' [b2|]]; try done.
  apply Bool.eqb_prop in H3. cbn in *. by subst.
Qed.
Definition coded_b (r : race Z world) (x : race_event Z) : bool :=
  match x with
  | RBegin i (EvEnqueue j _) _ =>
      (0 <? data j) && (run_count (ctx j) =? 0)%nat && match jstatus (ctx j) with Queued => true | _ => false end
  | RBegin i (EvTask k u) _ =>
      match r_procs r !! i with
      | Some p => match p_tasks p !! k with Some t => same_result u (code_result ten (counted (t_orig t))) | None => true end
      | None => true
      end
  | _ => true
  end.
Lemma coded_b_ok r x : coded_b r x = true → coded ten (λ _ d, 0 < d) r x.
Proof.
  destruct x as [i e n|i f|i]; try done. destruct e as [j c| | | | | |k u| | | |]; try done.
  - intros H. apply andb_true_iff in H as [H H3]. apply andb_true_iff in H as [H1 H2].
    split; [by apply Z.ltb_lt|]. split; [by apply Nat.eqb_eq|]. by destruct (jstatus (ctx j)).
  - intros H t (p & Hp & Ht). cbn [coded_b] in H. rewrite Hp, Ht in H. by apply same_result_ok.
Qed.
Fixpoint along_b (r : race Z world) (xs : list (race_event Z)) : bool :=
  match xs with
  | [] => true
  | x :: xs' => coded_b r x &&
      along_b (race_step (λ _, Debug) (λ _, demo_sched) (λ _, "q"%string) (λ _, mem_h demo_clock) r x) xs'
  end.
Lemma along_b_ok r xs : along_b r xs = true → pr_along (coded ten (λ _ d, 0 < d)) r xs.
Proof.
  revert r. induction xs as [|x xs IH]; intros r H; [done|]. apply andb_true_iff in H as [H1 H2].
  split; [by apply coded_b_ok|]. by apply IH.
Qed.
Example C86_case :
  let r := two_after 2 ten_xs in
  pr_along (coded ten (λ _ d, 0 < d)) pr_init ten_xs ∧
  map (λ x : nat * job Z, (x.1, jid x.2, run_count (ctx x.2), data x.2)) (r_runs r) =
    [(0%nat, "a", 1%nat, 1); (1%nat, "a", 1%nat, 1); (0%nat, "a", 2%nat, 21)] ∧
  map (λ j : job Z, (jid j, jstatus (ctx j), run_count (ctx j), data j)) (omap (λ k, stored (r_world r) k) ["a"; "b"]) =
    [("a", Finished, 2%nat, 222); ("b", Running, 0%nat, 2)] ∧
  omap (λ a, match a with (i, EvGet _, RJob (Some j)) => Some (i, run_count (ctx j), data j) | _ => None end) (r_answers r) =
    [(0%nat, 1%nat, 21)].
Proof.
  cbv zeta. split; [|split; [|split; by vm_compute]]; [|by vm_compute]. apply along_b_ok. by vm_compute.
Qed.
(** What is said of a finished job, in this case. *)
Example C86_case_said :
  last_said (does ten) "a" 1 2 222 false ∧ led (does ten) "a" 1 1 21 ∧ ¬ led (does ten) "a" 1 2 223.
Proof.
  set (c0 := set_jstatus (ctx (demo_job "a" 1)) Running).
  assert (led (does ten) "a" 1 1 21) as H1.
  { apply (led_more _ _ _ (Job c0 1) (ten_fail 1)); [done|done|constructor|]. by repeat eexists. }
  split; [|split; [done|]].
  - exists (Job (set_run_count c0 1) 21), (ten_ok 21). split; [done|]. split; [done|]. split; [done|]. split; [done|].
    split; [|done]. by repeat eexists.
  - assert (∀ n d, led (does ten) "a" 1 n d → n = 0%nat → d = 1) as L0 by (intros n d []; done).
    assert (∀ n d, led (does ten) "a" 1 n d → n = 1%nat → d = 21) as L1.
    { intros n d [|j u _ _ Hl Hd]; [done|]. intros [= E]. apply L0 in Hl; [|done].
      destruct Hd as (d3 & o3 & (d1 & d2 & o2 & <- & [= <- <-] & [= <- <-]) & -> & _). cbn. by rewrite Hl, E. }
    intros H. inversion H as [|j u _ _ Hl Hd E1 E2]. apply L1 in Hl; [|done].
    destruct Hd as (d & o & (d1 & d2 & o2 & <- & [= <- <-] & [= <- <-]) & E & _).
    rewrite E in E2. cbn in E2. rewrite Hl, E1 in E2. by cbn in E2.
Qed.
(** Worker 0 cannot send "a" back after its first attempt: the job is failed, with the payload and the
    count it had before, and it has been executed once more than it says. *)
Definition lost_xs : list (race_event Z) :=
  pr_pick ++ poll 0 (ten_fail 1) ++ poll 0 (ten_fail 1) ++ poll 0 (ten_fail 1)
  ++ RBegin 0 (EvTask 0 (ten_fail 1)) 0 :: RCall 0 FOk :: RCall 0 FBefore :: go 0 9.
Example C86_case_lost :
  let r := two_after 2 lost_xs in
  pr_along (coded ten (λ _ d, 0 < d)) pr_init lost_xs ∧
  map (λ x : nat * job Z, (x.1, jid x.2, run_count (ctx x.2), data x.2)) (r_runs r) = [(0%nat, "a", 1%nat, 1)] ∧
  map (λ j : job Z, (jid j, jstatus (ctx j), run_count (ctx j), data j)) (omap (λ k, stored (r_world r) k) ["a"]) =
    [("a", Failed, 0%nat, 1)] ∧
  one_more (does ten) "a" 1 0 1.
Proof.
  cbv zeta. split; [apply along_b_ok; by vm_compute|]. split; [by vm_compute|]. split; [by vm_compute|].
  exists (Job (set_jstatus (ctx (demo_job "a" 1)) Running) 1), (ten_fail 1). split; [done|]. split; [done|].
  split; [done|]. split; [done|]. split; [constructor|]. by repeat eexists.
Qed.
