(** The picking loop under races. *)
From Verif Require Import Spec SpecRace SpecMulti BackendFacts WorldFacts RedisFacts MultiFacts RaceFacts.

(** *** The bound on the rounds does not matter *)
Fixpoint agree {A} (n : nat) (p p' : prog A) : Prop :=
  match n with
  | O => True
  | S n' =>
      match p with
      | Ret a => p' = Ret a
      | Panic => p' = Panic
      | Diverge => p' = Diverge
      | Eff e k => ∃ k', p' = Eff e k' ∧ ∀ x, agree n' (k x) (k' x)
      end
  end.
Lemma agree_refl {A} n (p : prog A) : agree n p p.
Proof. revert p. induction n as [|n IH]; intros p; [done|]. destruct p as [| | |X e k]; try done. exists k. eauto. Qed.
Lemma agree_le {A} n n' (p p' : prog A) : (n <= n')%nat → agree n' p p' → agree n p p'.
Proof.
  revert n' p p'. induction n as [|n IH]; intros n' p p' Hn; [done|]. destruct n' as [|n']; [lia|].
  destruct p as [| | |X e k]; try done. cbn. intros (k' & -> & H). exists k'. split; [done|]. intros x.
  apply (IH n'); [lia|auto].
Qed.
Lemma agree_bind {A B} n (p p' : prog A) (f f' : A → prog B) :
  agree n p p' → (∀ a, agree n (f a) (f' a)) → agree n (bind p f) (bind p' f').
Proof.
  revert p p' f f'. induction n as [|n IH]; intros p p' f f' Hp Hf; [done|].
  destruct p as [a| | |X e k]; [cbn in Hp; subst p'; apply (Hf a)|by rewrite Hp|by rewrite Hp|].
  destruct Hp as (k' & -> & Hk). exists (λ x, bind (k' x) f'). split; [done|]. intros x. apply IH; [auto|].
  intros a. eapply agree_le; [|apply Hf]. lia.
Qed.

Section fuel.
  Context {M : Type} `{SM : Serde M}.
  Lemma agree_loop prof name n a b total (ready : list (job M)) cursor :
    agree n (pick_loop prof name (n + a) total ready cursor) (pick_loop prof name (n + b) total ready cursor).
  Proof.
    revert ready cursor. induction n as [|n IH]; intros ready cursor; [done|].
    change (S n + a)%nat with (S (n + a)). change (S n + b)%nat with (S (n + b)). cbn [pick_loop].
    eexists. split; [done|]. intros x. fold @bind. cbn [bind].
    destruct x as [ids|e]; [|apply agree_refl]. destruct (i32_norm prof _); [|apply agree_refl].
    apply agree_bind; [apply agree_refl|]. intros [r|e]; [|apply agree_refl].
    destruct (_ <=? _)%nat; [apply agree_refl|]. destruct (_ <=? _); [apply agree_refl|]. apply IH.
  Qed.
  Context (prof : nat → profile).
  Context (sched : nat → string → option (time → option time)).
  Context (name : nat → string).
  Context {W : Type} (h : nat → handler W).
  Lemma agree_step_of n a b i c ts (e : event M) :
    (n <= a)%nat → (n <= b)%nat →
    agree n (step_of prof sched name a i c ts e) (step_of prof sched name b i c ts e).
  Proof.
    intros Ha Hb.
    assert (∀ c' ts', agree n (do_tick prof name a i c' ts') (do_tick prof name b i c' ts')) as H.
    { intros c' ts'. apply agree_bind; [|intros; apply agree_refl]. apply agree_bind; [apply agree_refl|].
      intros r. cbv zeta. destruct (_ <=? _)%nat; [apply agree_refl|]. apply agree_bind; [apply agree_refl|].
      intros [len|er]; [|apply agree_refl].
      replace (a + S len)%nat with (n + ((a - n) + S len))%nat by lia.
      replace (b + S len)%nat with (n + ((b - n) + S len))%nat by lia. apply agree_loop. }
    destruct e; try apply agree_refl; (apply agree_bind; [apply H|intros; apply agree_refl]).
  Qed.
  (** Processes that agree for n more calls. *)
  Definition agree_proc (n : nat) (p p' : proc M) : Prop :=
    p_cfg p = p_cfg p' ∧ p_tasks p = p_tasks p' ∧ p_alive p = p_alive p' ∧
    match p_now p, p_now p' with
    | Some (e, q), Some (e', q') => e = e' ∧ agree n q q'
    | None, None => True
    | _, _ => False
    end.
  Definition agree_race (n : nat) (r r' : race M W) : Prop :=
    r_world r = r_world r' ∧ r_runs r = r_runs r' ∧ r_answers r = r_answers r' ∧
    Forall2 (agree_proc n) (r_procs r) (r_procs r').
  Lemma agree_proc_le n n' p p' : (n <= n')%nat → agree_proc n' p p' → agree_proc n p p'.
  Proof.
    intros Hn (H1 & H2 & H3 & H4). split; [done|]. split; [done|]. split; [done|].
    destruct (p_now p) as [[e q]|], (p_now p') as [[e' q']|]; try done. destruct H4. split; [done|]. by eapply agree_le.
  Qed.
  Lemma agree_race_le n n' r r' : (n <= n')%nat → agree_race n' r r' → agree_race n r r'.
  Proof.
    intros Hn (H1 & H2 & H3 & H4). split; [done|]. split; [done|]. split; [done|].
    eapply Forall2_impl; [exact H4|]. intros p p'. by apply agree_proc_le.
  Qed.
  Lemma agree_put n r r' i p p' : agree_race n r r' → agree_proc n p p' → agree_race n (put r i p) (put r' i p').
  Proof.
    intros (H1 & H2 & H3 & H4) Hp. split; [done|]. split; [done|]. split; [done|]. by apply Forall2_insert.
  Qed.
  Lemma agree_gone n p p' : agree_proc n p p' → agree_proc n (gone p) (gone p').
  Proof. intros (H1 & H2 & H3 & H4). by split. Qed.
  Lemma agree_race_step n r r' x y :
    agree_race (S n) r r' → same_but_fuel x y → fuel_at_least n x → fuel_at_least n y →
    agree_race n (race_step prof sched name h r x) (race_step prof sched name h r' y).
  Proof.
    intros Hr Hxy Hx Hy. assert (agree_race n r r') as Hrn by (eapply agree_race_le; [|exact Hr]; lia).
    pose proof Hr as (H1 & H2 & H3 & H4).
    assert (∀ i, match r_procs r !! i, r_procs r' !! i with
      | Some p, Some p' => agree_proc (S n) p p' | None, None => True | _, _ => False end) as Hl.
    { intros i. destruct (r_procs r !! i) as [p|] eqn:E.
      - destruct (Forall2_lookup_l _ _ _ _ _ H4 E) as (p' & -> & Hp). done.
      - apply lookup_ge_None in E. rewrite (Forall2_length _ _ _ H4) in E. by rewrite (proj2 (lookup_ge_None _ _) E). }
    destruct x as [i e a|i f|i], y as [i' e' b|i' f'|i']; try done.
    - destruct Hxy as [<- <-]. cbn [race_step]. specialize (Hl i).
      destruct (r_procs r !! i) as [p|], (r_procs r' !! i) as [p'|]; try done. apply agree_put; [done|].
      assert (agree_proc n p p') as Hn by (eapply agree_proc_le; [|exact Hl]; lia).
      destruct Hl as (E1 & E2 & E3 & E4). unfold race_begin.
      destruct (p_now p) as [[]|], (p_now p') as [[]|]; try done. rewrite <-E3, <-E1, <-E2.
      destruct (p_alive p), e; try done; try (by apply agree_gone);
        (split; [done|]; split; [done|]; split; [done|]; split; [done|]; by apply agree_step_of).
    - injection Hxy as <- <-. cbn [race_step]. specialize (Hl i).
      destruct (r_procs r !! i) as [p|] eqn:Ep, (r_procs r' !! i) as [p'|] eqn:Ep'; try done.
      assert (agree_proc n p p') as Hn by (eapply agree_proc_le; [|exact Hl]; lia).
      pose proof Hl as (E1 & E2 & E3 & E4). unfold race_call.
      destruct (p_now p) as [[e q]|], (p_now p') as [[e' q']|]; try done. destruct E4 as [<- Hq].
      destruct q as [[[[c ts] js] a]| | |X e0 k]; cbn [agree] in Hq.
      + subst q'. split; [done|]. cbn. rewrite H2, H3. split; [done|]. split; [done|].
        destruct Hrn as (_ & _ & _ & H). by apply Forall2_insert.
      + subst q'. by apply agree_put, agree_gone.
      + subst q'. by apply agree_put, agree_gone.
      + destruct Hq as (k' & -> & Hk). rewrite <-H1. destruct (call_h h i f X e0 (r_world r)) as [w x].
        split; [done|]. split; [done|]. split; [done|]. cbn. destruct Hrn as (_ & _ & _ & H).
        apply Forall2_insert; [done|]. rewrite <-E1, <-E2, <-E3. by split.
    - injection Hxy as <-. cbn [race_step]. specialize (Hl i).
      destruct (r_procs r !! i) as [p|], (r_procs r' !! i) as [p'|]; try done. apply agree_put; [done|].
      apply agree_gone. eapply agree_proc_le; [|exact Hl]. lia.
  Qed.
  Lemma agree_run r r' xs ys :
    agree_race (length xs) r r' → Forall2 same_but_fuel xs ys →
    Forall (fuel_at_least (length xs)) xs → Forall (fuel_at_least (length xs)) ys →
    agree_race 0 (race_run prof sched name h r xs) (race_run prof sched name h r' ys).
  Proof.
    intros Hr H. revert r r' Hr. induction H as [|x y xs ys Hxy H IH]; intros r r' Hr Hx Hy; [done|].
    assert (∀ z, fuel_at_least (length (x :: xs)) z → fuel_at_least (M := M) (length xs) z) as Hf.
    { intros [] ; cbn; lia. }
    apply list.Forall_cons in Hx as [Hx Hxs]. apply list.Forall_cons in Hy as [Hy Hys]. cbn [race_run fold_left]. apply IH.
    - apply agree_race_step; auto.
    - eapply list.Forall_impl; [exact Hxs|auto].
    - eapply list.Forall_impl; [exact Hys|auto].
  Qed.
End fuel.

Section fuel_mem.
  Context {M : Type} `{SM : Serde M}.
  Context (prof : nat → profile).
  Context (sched : nat → string → option (time → option time)).
  Context (name : nat → string).
  Context (clock : nat → nat → time).
  Lemma race_fuel n (xs ys : list (race_event M)) :
    Forall2 same_but_fuel xs ys →
    Forall (fuel_at_least (length xs)) xs → Forall (fuel_at_least (length xs)) ys →
    let r := race_after prof sched name clock n xs in
    let r' := race_after prof sched name clock n ys in
    r_world r = r_world r' ∧ r_runs r = r_runs r' ∧ r_answers r = r_answers r' ∧
    map shown (r_procs r) = map shown (r_procs r').
  Proof.
    intros H Hx Hy. cbv zeta.
    destruct (agree_run prof sched name (λ i, mem_h (clock i)) (race_init world_empty n) (race_init world_empty n) xs ys)
      as (H1 & H2 & H3 & H4); try done.
    - split; [done|]. split; [done|]. split; [done|]. cbn. apply Forall_Forall2_diag. by apply list.Forall_forall; intros p Hp; apply elem_of_list_In, repeat_spec in Hp as ->.
    - split; [done|]. split; [done|]. split; [done|]. unfold race_after. induction H4 as [|p p' l l' Hp Hl IH]; [done|].
      cbn. f_equal; [|done]. destruct Hp as (E1 & E2 & E3 & E4). unfold shown. rewrite E1, E2, E3.
      destruct (p_now p) as [[e q]|], (p_now p') as [[e' q']|]; try done. by destruct E4 as [<- _].
  Qed.
End fuel_mem.
