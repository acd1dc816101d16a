(** A cron job without limits is executed again and again. *)
From Verif Require Import Spec JsonFacts BackendFacts WorldFacts MicroFacts LifeFacts HistFacts SubmitFacts LifeProps
  PickFacts PluginFacts SpecLive LiveFacts ShortLive DrainFacts ApiFacts SpecEver.
Open Scope Z_scope.

Section facts.
  Context {M : Type} `{SM : Serde M} {SO : SerdeOk M}.
  Context (prof : profile).
  Context (sched : string → option (time → option time)).
  Context (name : string).
  Context (clock : nat → time).
  Notation qlist := (qlist name).
  Notation stored := (@stored M SM).
  Notation at_ := (at_ name).
  Notation pstate := (@pstate M).
  Notation ever := (without_end (M := M) sched).

  Definition repeats (j : job M) : Z := match jtype (ctx j) with Cron _ _ n _ => n | _ => 0 end.
  Lemma norm_ever (j : job M) : ever j → ever (norm_job j).
  Proof.
    intros (x & sl & n & cc & f & H1 & H2 & H3 & H4 & H5 & H6). exists x, (trunc_us sl), n, (norm_cc cc), f.
    cbn. rewrite H1, H4, H2, H3. done.
  Qed.
  Lemma norm_repeats (j : job M) : repeats (norm_job j) = repeats j.
  Proof. unfold repeats. cbn. by destruct (jtype (ctx j)). Qed.
  Lemma alike_ever (j j' : job M) : alike j j' → ever j → ever j'.
  Proof. intros [H1 H2] H. unfold without_end. by rewrite H1, H2. Qed.
  Lemma alike_repeats (j j' : job M) : alike j j' → repeats j' = repeats j.
  Proof. intros [H1 _]. unfold repeats. by rewrite H1. Qed.
  Lemma judge_ever k (j : job M) u k1 v : ever j → judge prof sched clock k j u = (k1, v) →
    v = VPanic ∧ in_i32 (repeats j + 1) = false ∧ prof = Debug ∨
    ∃ nj, v = VRequeue nj ∧ ever nj ∧ (in_i32 (repeats j + 1) = true → repeats nj = repeats j + 1) ∧
      (prof = Debug → in_i32 (repeats j + 1) = true).
  Proof.
    intros (x & sl & n & cc & f & H1 & H2 & H3 & H4 & H5 & H6). unfold judge. rewrite H4. unfold finish_of, tick_of, repeats.
    rewrite H1, H5, H2, H3. destruct (f (clock (S k))) as [t|] eqn:E; [|by destruct (H6 (clock (S k)))].
    unfold i32_norm. destruct (in_i32 (n + 1)) eqn:Ei; [|destruct prof]; cbn; intros [= <- <-].
    - right. eexists. split; [done|]. split; [exists x, t, (n + 1), cc, f; done|]. cbn. done.
    - by left.
    - right. eexists. split; [done|]. split; [by exists x, t, (wrap32 (n + 1)), cc, f|]. done.
  Qed.

  Definition lives (p : pstate) : Prop :=
    match p with
    | PQueued j => ever j
    | PTask t => ever (t_orig t) ∧ alike (t_orig t) (t_job t)
    | POrphan _ => True
    | _ => False
    end.
  (** The number of executions that the job has counted and is about to count. *)
  Definition reps (p : pstate) : Z :=
    match p with
    | PQueued j => repeats j
    | PTask t => repeats (t_orig t) + match t_phase t with Spawned | Hooked => 0 | _ => 1 end
    | _ => 0
    end.
  Definition orphan (p : pstate) : bool := match p with POrphan _ => true | _ => false end.
  Definition top (T : Z) (p : pstate) : Prop :=
    match p with PQueued j => repeats j <= T | PTask t => repeats (t_orig t) <= T | _ => True end.
  Lemma pstep_lives id (e : event M) k p new k' p' :
    ¬ submits id e ∧ e ≠ EvCancel id → pstep prof sched clock id e k p new k' p' → lives p →
    lives p' ∧ (prof = Debug → ∀ T, i32_max <= T → top T p → top T p' ∧
      (orphan p' = false → orphan p = false ∧ reps p' = reps p + Z.of_nat (length new))).
  Proof.
    intros [He1 He2] H Hf. destruct H; try done; cbn [lives reps length orphan top t_orig t_job t_phase] in *.
    all: try (by subst e; destruct He1). all: try (by subst e; destruct He2).
    - split; [done|]. intros _ T _ HT. split; [done|]. intros Ho. split; [done|]. lia.
    - split; [done|]. intros _ T _ HT. split; [done|]. intros _. split; [done|]. rewrite H0. cbn. lia.
    - destruct Hf as [H1 H2]. split; [by split|]. intros _ T _ HT. split; [done|]. intros _. split; [done|]. rewrite H0. cbn. lia.
    - destruct Hf as [H1 H2]. split; [by split|]. intros _ T _ HT. split; [done|]. intros _. split; [done|]. rewrite H0. cbn. lia.
    - destruct Hf as [Hf1 Hf2]. rewrite H0.
      destruct (judge_ever _ _ _ _ _ (alike_ever _ _ Hf2 Hf1) H1) as [[? _]|(nj' & [= ->] & Hn & Hr & Hd)]; [done|].
      rewrite (alike_repeats _ _ Hf2) in Hr, Hd. rewrite norm_repeats. change (repeats (enq nj' (ms_of (clock k1)))) with (repeats nj').
      split; [by apply norm_ever|]. intros EP T HT Ht. rewrite (Hr (Hd EP)). specialize (Hd EP). unfold in_i32 in Hd.
      apply andb_true_iff in Hd as [_ Hd%Z.leb_le]. split; [lia|]. intros _. split; [done|]. lia.
    - destruct Hf as [Hf1 Hf2]. by destruct (judge_ever _ _ _ _ _ (alike_ever _ _ Hf2 Hf1) H1) as [[? _]|(nj' & ? & _)].
    - destruct Hf as [Hf1 Hf2]. by destruct (judge_ever _ _ _ _ _ (alike_ever _ _ Hf2 Hf1) H1) as [[? _]|(nj' & ? & _)].
  Qed.
  Lemma psteps_lives id (e : event M) k p new k' p' :
    ¬ submits id e ∧ e ≠ EvCancel id → psteps prof sched clock id e k p new k' p' → lives p →
    lives p' ∧ (prof = Debug → ∀ T, i32_max <= T → top T p → top T p' ∧
      (orphan p' = false → orphan p = false ∧ reps p' = reps p + Z.of_nat (length new))).
  Proof.
    intros He H. induction H as [|k p n1 k1 p1 n2 k2 p2 H1 H2 IH]; intros Hf.
    - split; [done|]. intros _ T _ HT. split; [done|]. intros Ho. split; [done|]. cbn. lia.
    - destruct (pstep_lives _ _ _ _ _ _ _ He H1 Hf) as [G1 G2]. destruct (IH G1) as [I1 I2]. split; [done|].
      intros EP T HT Ht. destruct (G2 EP T HT Ht) as [G3 G4]. destruct (I2 EP T HT G3) as [I3 I4]. split; [done|].
      intros Ho. destruct (I4 Ho) as [Ho1 E1]. destruct (G4 Ho1) as [Ho2 E2]. split; [done|]. rewrite app_length. lia.
  Qed.

  Lemma psteps_absent id (e : event M) k p new k' p' :
    ¬ submits id e → psteps prof sched clock id e k p new k' p' → p = PAbsent → p' = PAbsent.
  Proof.
    intros He H. induction H as [|k p n1 k1 p1 n2 k2 p2 H1 H2 IH]; intros ->; [done|]. apply IH.
    inversion H1; subst; try done; try (by destruct He). all: naive_solver.
  Qed.

  Section run.
    Context (ev : nat → event M).
    Notation s n := (moment prof sched name clock ev n).
    Context (Hh : healthy prof sched name clock ev).
    Context (Hticks : ticking ev).
    Context (Hpolls : polling prof sched name clock ev).
    Context (n0 : nat) (id : string).
    Context (Halone : ∀ n, (n0 <= n)%nat → ¬ submits id (ev n) ∧ ev n ≠ EvCancel id).
    Notation at_n := (LiveFacts.at_n prof sched name clock ev Hh).
    Notation s_S := (LiveFacts.s_S prof sched name clock ev).

    Lemma ever_step n p : at_ (s n) id p →
      ∃ p' new k k', at_ (s (S n)) id p' ∧ psteps prof sched clock id (ev n) k p new k' p' ∧
        runs_of id (s (S n)) = runs_of id (s n) ++ new.
    Proof.
      intros Hp. rewrite s_S.
      assert (ok_event (s n) (ev n)) as He.
      { pose proof (ok_n prof sched name clock ev Hh (S n)) as Ho. rewrite seq_S, map_app, app_comm_cons in Ho.
        apply (ok_snoc prof sched name clock) in Ho as [_ Ho]. exact Ho. }
      destruct (life_step prof sched name clock (s n) (ev n) He (at_n n)) as [_ H].
      destruct (H id p Hp) as (p' & new & H1 & H2 & H3). eauto 10.
    Qed.
    Lemma no_orphan' n p : at_ (s n) id p → orphan p = false.
    Proof. intros Hp. destruct p; try done. by apply (no_orphan prof sched name clock ev Hh) in Hp. Qed.
    Lemma ever_le n d p : (n0 <= n)%nat → at_ (s n) id p → lives p → ∃ p', at_ (s (n + d)) id p' ∧ lives p' ∧
      (prof = Debug → ∀ T, i32_max <= T → top T p → top T p' ∧
         reps p' - reps p = Z.of_nat (length (runs_of id (s (n + d)))) - Z.of_nat (length (runs_of id (s n)))).
    Proof.
      intros Hn Hp Hl. induction d as [|d (p1 & H1 & H2 & H3)].
      - rewrite Nat.add_0_r. exists p. split; [done|]. split; [done|]. intros _ T _ HT. split; [done|]. lia.
      - rewrite Nat.add_succ_r. destruct (ever_step (n + d) p1 H1) as (p' & new & k & k' & G1 & G2 & G3).
        destruct (psteps_lives _ _ _ _ _ _ _ (Halone (n + d)%nat ltac:(lia)) G2 H2) as [I1 I2].
        exists p'. split; [done|]. split; [done|]. intros EP T HT Ht. destruct (H3 EP T HT Ht) as [J1 J2].
        destruct (I2 EP T HT J1) as [K1 K2]. destruct (K2 (no_orphan' _ _ G1)) as [_ K3]. split; [done|].
        rewrite G3, app_length. lia.
    Qed.
    Context (j0 : job M) (Hin : id ∈ qlist (sw (s n0)) Queued) (Hj0 : stored (sw (s n0)) id = Some j0) (Hever : ever j0).

    Lemma first_at : at_ (s n0) id (PQueued j0).
    Proof.
      destruct (all_at_stored name (s n0) id (at_n n0) Hin) as (j & Hs & Hp). rewrite Hs in Hj0. by injection Hj0 as ->.
    Qed.
    Lemma again_and_again (Hclock : time_goes_on clock)
      (Hshort : ∀ n, (n0 <= n)%nat → ev n = EvTick → (length (qlist (sw (s n)) Queued) <= 20)%nat) N :
      ∃ n j, (n0 <= n)%nat ∧ at_ (s n) id (PQueued j) ∧ ever j ∧ (N <= length (runs_of id (s n)))%nat.
    Proof.
      induction N as [|N (n & j & Hn & Hp & Hj & IH)]; [exists n0, j0; split; [done|]; split; [apply first_at|]; split; [done|lia]|].
      assert (id ∈ qlist (sw (s n)) Queued ∧ stored (sw (s n)) id = Some j) as [Hq Hs].
      { destruct Hp as ((H1 & H2 & _) & _). split; [|done]. apply cnt_pos. lia. }
      destruct (short_fair prof sched name clock ev Hh Hticks Hpolls n id j) as (n1 & n2 & Hn12 & Hr & Ht); try done.
      { destruct Hj as (x & sl & m & cc & f & H1 & H2 & H3 & _). destruct (Hclock sl) as [k0 Hk0]. exists k0. intros k Hk.
        unfold due. rewrite H1, H2, H3. specialize (Hk0 k Hk). split; [lia|done]. }
      { intros m Hm. apply Halone. lia. }
      { intros m Hm. apply Hshort. lia. }
      destruct (ever_le n (n2 - n) (PQueued j) Hn Hp Hj) as (p2 & Hp2 & Hl2 & _).
      replace (n + (n2 - n))%nat with n2 in * by lia.
      pose proof (runs_of_le prof sched name clock ev Hh id n1 n2 ltac:(lia)).
      pose proof (no_orphan' _ _ Hp2) as Ho. destruct p2 as [|j2|j2|t|j2|j2]; try done.
      - exists n2, j2. split; [lia|]. split; [done|]. split; [done|]. lia.
      - destruct Hp2 as ((_ & _ & _ & H2) & _). congruence.
    Qed.
    Lemma not_in_debug (EP : prof = Debug) n : ∃ B, (length (runs_of id (s (n0 + n))) <= B)%nat ∧
      B = Z.to_nat (Z.of_nat (length (runs_of id (s n0))) + Z.max 0 (i32_max - repeats j0) + 1).
    Proof.
      eexists. split; [|done].
      destruct (ever_le n0 n (PQueued j0) ltac:(lia) first_at Hever) as (p & Hp & Hl & H).
      destruct (H EP (Z.max i32_max (repeats j0)) ltac:(lia)) as [H1 H2]; [cbn; lia|].
      pose proof (no_orphan' _ _ Hp) as Ho.
      assert (reps p <= Z.max i32_max (repeats j0) + 1) as Hle.
      { destruct p as [|j|j|t|j|j]; try done; cbn [top reps] in *; [lia|]. destruct (t_phase t); lia. }
      cbn [reps] in H2. lia.
    Qed.
  End run.
  Lemma ever_again (ev : nat → event M) n0 id j :
    healthy prof sched name clock ev → ticking ev → polling prof sched name clock ev → time_goes_on clock →
    (∀ n, (n0 <= n)%nat → ¬ submits id (ev n) ∧ ev n ≠ EvCancel id) →
    (∀ n, (n0 <= n)%nat → ev n = EvTick → (length (qlist (sw (moment prof sched name clock ev n)) Queued) <= 20)%nat) →
    id ∈ qlist (sw (moment prof sched name clock ev n0)) Queued → stored (sw (moment prof sched name clock ev n0)) id = Some j →
    without_end sched j →
    ∀ N, ∃ n, (n0 <= n)%nat ∧ (N <= length (runs_of id (moment prof sched name clock ev n)))%nat.
  Proof.
    intros H1 H2 H3 H4 H5 H6 H7 H8 H9 N.
    destruct (again_and_again ev H1 H2 H3 n0 id H5 j H7 H8 H9 H4 H6 N) as (n & j' & Hn & _ & _ & H). by exists n.
  Qed.
  Lemma debug_bound (ev : nat → event M) n0 n id j x slot r cc :
    prof = Debug → healthy prof sched name clock ev →
    (∀ n, (n0 <= n)%nat → ¬ submits id (ev n) ∧ ev n ≠ EvCancel id) →
    id ∈ qlist (sw (moment prof sched name clock ev n0)) Queued → stored (sw (moment prof sched name clock ev n0)) id = Some j →
    without_end sched j → jtype (ctx j) = Cron x slot r cc → (n0 <= n)%nat →
    Z.of_nat (length (runs_of id (moment prof sched name clock ev n))) <=
      Z.of_nat (length (runs_of id (moment prof sched name clock ev n0))) + Z.max 0 (i32_max - r) + 1.
  Proof.
    intros EP H1 H5 H7 H8 H9 Ej Hn. destruct (not_in_debug ev H1 n0 id H5 j H7 H8 H9 EP (n - n0)) as (B & HB & ->).
    replace (n0 + (n - n0))%nat with n in HB by lia. unfold repeats in HB. rewrite Ej in HB. lia.
  Qed.
  Lemma debug_dies (ev : nat → event M) n0 id j :
    prof = Debug →
    ticking ev → polling prof sched name clock ev → time_goes_on clock →
    (∀ n, (n0 <= n)%nat → ¬ submits id (ev n) ∧ ev n ≠ EvCancel id) →
    (∀ n, (n0 <= n)%nat → ev n = EvTick → (length (qlist (sw (moment prof sched name clock ev n)) Queued) <= 20)%nat) →
    id ∈ qlist (sw (moment prof sched name clock ev n0)) Queued → stored (sw (moment prof sched name clock ev n0)) id = Some j →
    without_end sched j →
    (∀ n, calm (ev n) ∧ (1 <= max_processing_jobs (cfg (moment prof sched name clock ev n)))%nat ∧
       ok_hist prof sched name clock initial (EvStart :: map ev (seq 0 n))) →
    ¬ ∀ n, alive (moment prof sched name clock ev n) = true.
  Proof.
    intros EP H2 H3 H4 H5 H6 H7 H8 H9 H0 Hal.
    assert (healthy prof sched name clock ev) as H1 by (intros n; destruct (H0 n) as (? & ? & ?); done).
    pose proof H9 as (x & sl & r & cc & _ & Ej & _).
    destruct (ever_again ev n0 id j H1 H2 H3 H4 H5 H6 H7 H8 H9
      (S (Z.to_nat (Z.of_nat (length (runs_of id (moment prof sched name clock ev n0))) + Z.max 0 (i32_max - r) + 1)))) as (n & Hn & H).
    pose proof (debug_bound ev n0 n id j x sl r cc EP H1 H5 H7 H8 H9 Ej Hn). lia.
  Qed.
End facts.
