From Verif Require Import SpecTimer JsonFacts BackendFacts WorldFacts MicroFacts LifeFacts HistFacts SubmitFacts LifeProps ListFacts ApiFacts PickFacts StarveFacts LiveFacts.

Section any.
  Context {M : Type} `{SM : Serde M}.
  Context (prof : profile).
  Context (sched : string → option (time → option time)).
  Context (name : string).
  Context {W : Type} (h : handler W).
  Notation step := (sys_step prof sched name h).
  Notation tstep := (timed_step prof sched name h).
  Notation trun := (timed_run prof sched name h).
  Notation untimed := (untimed prof sched name h).
  Notation beats := (beats prof sched name h).
  Notation throughout := (throughout prof sched name h).
  Notation ticks_at := (@ticks_at M W).
  Implicit Types (t : timed W M) (es : list (tevent M)).

  Lemma trun_cons t e es : trun t (e :: es) = trun (tstep t e) es.
  Proof. done. Qed.
  Lemma trun_app t es es' : trun t (es ++ es') = trun (trun t es) es'.
  Proof. apply fold_left_app. Qed.

  (** The queue's part of a timed history. *)
  Lemma tq_untimed t es : tq (trun t es) = sys_run prof sched name h (tq t) (untimed t es).
  Proof.
    revert t. induction es as [|e es IH]; intros t; [done|]. rewrite trun_cons, IH. cbn [SpecTimer.untimed].
    unfold sys_run. rewrite fold_left_app. f_equal. destruct e as [d|i d|e d]; [done|..].
    - cbn [timed_step]. by destruct (expired t i).
    - by destruct e.
  Qed.
  Lemma untimed_app t es es' : untimed t (es ++ es') = untimed t es ++ untimed (trun t es) es'.
  Proof. revert t. induction es as [|e es IH]; intros t; [done|]. cbn. by rewrite IH, app_assoc. Qed.
  Lemma elapsed_app es es' : elapsed (es ++ es') = elapsed es + elapsed es'.
  Proof. induction es as [|e es IH]; [done|]. cbn. destruct e; lia. Qed.
  Lemma elapsed_nonneg es : 0 <= elapsed es.
  Proof. induction es as [|e es IH]; [done|]. cbn. destruct e; lia. Qed.
  Lemma tnow_run t es : tnow (trun t es) = tnow t + elapsed es.
  Proof.
    revert t. induction es as [|e es IH]; intros t; [cbn; lia|]. rewrite trun_cons, IH. cbn [elapsed].
    destruct e as [d|i d|e d]; cbn [timed_step].
    - cbn. unfold later. lia.
    - destruct (expired t i); cbn; unfold later; lia.
    - destruct e; cbn; unfold later; lia.
  Qed.
  (** An event that is not a tick, seen from the queue. *)
  Lemma tstep_ev t e d : e = EvTick ∨ tstep t (TEv e d) = let s := (step (tq t) e).1 in
    Timed s (later (tnow t) d) (if alive s then timers t ++ (if alive (tq t) then [] else [arm s (later (tnow t) d)]) else []).
  Proof. destruct e; auto. Qed.

  (** A dead queue stays dead but for a start. *)
  Lemma dead_step (s : sys W M) e : alive s = false → alive (step s e).1 = true → e = EvStart.
  Proof. intros Ha. unfold sys_step. rewrite Ha. destruct e; cbn; try congruence. destruct e; cbn; congruence. Qed.

  (** One pending timer, as long as the queue lives. *)
  Definition one_timer t : Prop := if alive (tq t) then ∃ d, timers t = [d] else timers t = [].
  Lemma expired_one t i : one_timer t → expired t i = true → i = 0%nat ∧ alive (tq t) = true ∧ ∃ d, timers t = [d] ∧ d <= tnow t.
  Proof.
    unfold one_timer, expired. destruct (alive (tq t)); [|by intros ->]. intros [d ->]. destruct i as [|i]; [|done].
    cbn. intros H. split; [done|]. split; [done|]. exists d. split; [done|lia].
  Qed.
  Lemma one_step t e : one_timer t → one_timer (tstep t e).
  Proof.
    intros H. destruct e as [d|i d|e d].
    - exact H.
    - cbn [timed_step]. destruct (expired t i) eqn:E; [|done]. destruct (expired_one _ _ H E) as (-> & Ha & d' & Ht & _).
      unfold one_timer. cbn [tq timers]. cbv zeta. destruct (alive (step (tq t) EvTick).1); [|done].
      rewrite Ht. cbn. eauto.
    - destruct (tstep_ev t e d) as [->|E]; [done|]. rewrite E. cbv zeta.
      unfold one_timer in *. cbn [tq timers]. destruct (alive (step (tq t) e).1); [|done].
      destruct (alive (tq t)); [|rewrite H; cbn; eauto]. rewrite app_nil_r. exact H.
  Qed.
  Lemma one_init (w : W) : one_timer (timed_init w).
  Proof. done. Qed.
  Lemma one_run t es : one_timer t → one_timer (trun t es).
  Proof. revert t. induction es as [|e es IH]; intros t H; [done|]. rewrite trun_cons. by apply IH, one_step. Qed.

  (** An event that is not a tick leaves the timer of a living queue alone. *)
  Lemma timers_stay t e :
    one_timer t → alive (tq t) = true → alive (tq (tstep t e)) = true → ¬ ticks_at t e →
    timers (tstep t e) = timers t.
  Proof.
    intros Ho Ha Ha' Hn. destruct e as [d|i d|e d].
    - done.
    - cbn [timed_step] in *. destruct (expired t i) eqn:E; [|done]. exfalso. apply Hn. by exists i, d.
    - destruct e; cbn [timed_step tq timers] in *; cbv zeta in *; try done; by rewrite Ha', Ha, app_nil_r.
  Qed.

  (** Beats. *)
  Lemma first_beat t es b a z p l :
    one_timer t → beats t es = Beat b a z p :: l → b = true ∨ ∃ d, timers t = [d] ∧ d <= a.
  Proof.
    revert t. induction es as [|e es IH]; intros t Ho; [done|]. cbn [SpecTimer.beats].
    pose proof (one_step t e Ho) as Ho'. destruct e as [d|i d|e d].
    - cbn [app]. intros H. apply IH in H; [|done]. exact H.
    - destruct (expired t i) eqn:E.
      + intros [= <- <- _ _ _]. right. destruct (expired_one _ _ Ho E) as (_ & _ & d' & Hd & Hl). eauto.
      + cbn [app]. intros H. apply IH in H; [|done]. cbn [timed_step] in H. rewrite E in H. exact H.
    - destruct (alive (tq t)) eqn:Ea; [|destruct (alive (tq (tstep t (TEv e d)))) eqn:Ea']; cbn [negb andb app].
      + intros H. apply IH in H; [|done]. destruct H as [->|(d' & Hd & Hl)]; [by left|]. right. exists d'. split; [|done].
        assert (alive (tq (tstep t (TEv e d))) = true) as Ha'.
        { unfold one_timer in Ho'. destruct (alive (tq (tstep t (TEv e d)))); [done|congruence]. }
        rewrite timers_stay in Hd; try done. by intros (i & ? & ? & _).
      + intros [= <- _ _ _ _]. by left.
      + intros H. apply IH in H; [|done]. destruct H as [->|(d' & Hd & Hl)]; [by left|].
        unfold one_timer in Ho'. rewrite Ea' in Ho'. congruence.
  Qed.
  Lemma beat_timer t e b a z p :
    one_timer t →
    match e with
        | TFire i _ => if expired t i then [Beat false (tnow t) (tnow (tstep t e)) (tick_period (cfg (tq (tstep t e))))] else []
        | TEv _ _ => if negb (alive (tq t)) && alive (tq (tstep t e))
                   then [Beat true (tnow t) (tnow (tstep t e)) (tick_period (cfg (tq (tstep t e))))] else []
        | _ => [] end = [Beat b a z p] →
    (timers (tstep t e) = [z + p] ∨ timers (tstep t e) = []) ∧ a <= z.
  Proof.
    intros Ho He. assert (a <= z) as Hz.
    { assert (a = tnow t ∧ z = tnow (trun t [e])) as [-> ->].
      { destruct e as [d|i d|e d]; [done|destruct (expired t i); [|done]|destruct (_ && _); [|done]]; by injection He as _ <- <- _. }
      rewrite tnow_run. pose proof (elapsed_nonneg [e]). lia. }
    split; [|done]. revert He.
    pose proof (one_step t e Ho) as Ho'. destruct e as [d|i d|e d]; [done|..].
    - destruct (expired t i) eqn:E; [|done]. intros [= _ _ <- <-].
      destruct (expired_one _ _ Ho E) as (-> & Ha & d' & Hd & _).
      cbn [timed_step] in *. rewrite E in *. cbn [timers tq tnow] in *. cbv zeta. destruct (alive _); [|by right]. left.
      by rewrite Hd.
    - destruct (alive (tq t)) eqn:Ea; [done|]. destruct (alive (tq (tstep t (TEv e d)))) eqn:Ea'; [|done].
      intros [= _ _ <- <-]. left. unfold one_timer in Ho. rewrite Ea in Ho.
      destruct e; cbn [timed_step timers tq tnow] in *; cbv zeta in *; rewrite ?Ea', ?Ea, ?Ho; try done; congruence.
  Qed.
  Lemma beats_spaced t es : one_timer t → spaced (beats t es).
  Proof.
    revert t. induction es as [|e es IH]; intros t Ho; [by intros []|].
    pose proof (one_step t e Ho) as Ho'. cbn [SpecTimer.beats].
    match goal with |- spaced (?x ++ _) => set (X := x) end.
    assert (X = [] ∨ ∃ b a z p, X = [Beat b a z p]) as [->|(b&a&z&p&E)].
    { unfold X. destruct e; [by left|destruct (expired t i); [right; eauto 6|by left]|destruct (_ && _); [right; eauto 6|by left]]. }
    { by apply IH. }
    destruct (beat_timer t e b a z p Ho E) as [Ht Hz]. rewrite E. clear X E.
    intros l1 b1 t1 u1 p1 b2 t2 u2 p2 l2 E. destruct l1 as [|x l1]; cbn in E.
    - injection E as -> -> -> -> E. split; [done|]. destruct (first_beat _ _ _ _ _ _ _ Ho' E) as [?|(d & Hd & Hl)]; [by left|].
      right. destruct Ht as [Ht|Ht]; rewrite Ht in Hd; [|done]. injection Hd as <-. done.
    - injection E as _ E. by eapply (IH _ Ho').
  Qed.

  (** No tick before the pending deadline. *)
  Lemma no_tick_before t es d :
    one_timer t → timers t = [d] → throughout (λ t, alive (tq t) = true) t es → tnow t + elapsed es < d →
    EvTick ∉ untimed t es ∧ timers (trun t es) = [d].
  Proof.
    revert t. induction es as [|e es IH]; intros t Ho Hd Hall He.
    { split; [apply not_elem_of_nil|done]. }
    pose proof (one_step t e Ho) as Ho'. destruct Hall as [Ha Hall]. cbn [elapsed] in He.
    pose proof (elapsed_nonneg es) as Hen.
    assert (alive (tq (tstep t e)) = true) as Ha'. { destruct es; apply Hall. }
    assert (¬ ticks_at t e) as Hn.
    { intros (i & x & -> & E). destruct (expired_one _ _ Ho E) as (_&_&d'&Hd'&Hl). rewrite Hd in Hd'. injection Hd' as <-. lia. }
    assert (tnow (tstep t e) + elapsed es < d) as He'.
    { pose proof (tnow_run t [e]) as Hr. cbn in Hr. rewrite Hr. destruct e; lia. }
    destruct (IH (tstep t e)) as [H1 H2]; try done. { by rewrite timers_stay. }
    rewrite trun_cons. split; [|done]. cbn [SpecTimer.untimed]. apply not_elem_of_app. split; [|done].
    destruct e as [x|i x|e x]; [apply not_elem_of_nil|..].
    - destruct (expired t i) eqn:E; [|apply not_elem_of_nil]. exfalso. apply Hn. by exists i, x.
    - destruct e; try apply not_elem_of_nil; by intros ?%elem_of_list_singleton.
  Qed.

  (** A tick within the lateness after the deadline. *)
  Lemma tick_comes t es d late :
    one_timer t → timers t = [d] → throughout (punctual late) t es → d + late < tnow t + elapsed es →
    ∃ es1 e es2, es = es1 ++ e :: es2 ∧ ticks_at (trun t es1) e ∧ EvTick ∉ untimed t es1 ∧
      tnow t + elapsed es1 <= d + late.
  Proof.
    revert t. induction es as [|e es IH]; intros t Ho Hd Hall He.
    { destruct Hall as [[_ Hp] _]. specialize (Hp d). rewrite Hd in Hp. cbn in He.
      specialize (Hp ltac:(by apply elem_of_list_singleton)). lia. }
    pose proof (one_step t e Ho) as Ho'. destruct Hall as [[Ha Hp] Hall].
    assert (tnow t <= d + late) as Hnow. { apply Hp. rewrite Hd. by apply elem_of_list_singleton. }
    assert (alive (tq (tstep t e)) = true) as Ha'. { destruct es; apply Hall. }
    assert (ticks_at t e ∨ ¬ ticks_at t e) as [Ht|Hn].
    { destruct e as [x|i x|e x]; [right; by intros (?&?&?&?)| |right; by intros (?&?&?&?)].
      destruct (expired t i) eqn:E; [left; by exists i, x|right]. intros (i' & x' & [= <- <-] & E'). congruence. }
    { exists [], e, es. split; [done|]. split; [done|]. split; [apply not_elem_of_nil|]. cbn. lia. }
    destruct (IH (tstep t e)) as (es1 & e1 & es2 & -> & H1 & H2 & H3); try done.
    { by rewrite timers_stay. }
    { pose proof (tnow_run t [e]) as Hr. cbn in Hr. rewrite Hr. cbn [elapsed] in He. destruct e; lia. }
    exists (e :: es1), e1, es2. split; [done|]. split; [by rewrite trun_cons|]. split.
    - cbn [SpecTimer.untimed]. apply not_elem_of_app. split; [|done].
      destruct e as [x|i x|e x]; [apply not_elem_of_nil|..].
      + destruct (expired t i) eqn:E; [|apply not_elem_of_nil]. exfalso. apply Hn. by exists i, x.
      + destruct e; try apply not_elem_of_nil; by intros ?%elem_of_list_singleton.
    - pose proof (tnow_run t [e]) as Hr. cbn in Hr. rewrite Hr in H3. cbn [elapsed]. destruct e; lia.
  Qed.

  (** Periods. *)
  Lemma ev_cfg c ts (e : event M) w w' c' ts' js r :
    run h (ev_prog prof sched name c ts e) w = (w', Done (c', ts', js, r)) →
    c' = c ∨ c' = wq_config_default ∨ e = EvConfig c'.
  Proof.
    destruct e; cbn [ev_prog]; try (cbn; intros [= _ <- _ _ _]; by auto).
    all: try (rewrite run_bind; destruct (run h _ w) as [w1 [x| |]]; cbn; try done; intros [= _ <- _ _ _]; by auto).
    destruct (ts !! i); cbn; [|intros [= _ <- _ _ _]; by left].
    rewrite run_bind; destruct (run h _ w) as [w1 [[o x]| |]]; cbn; try done; intros [= _ <- _ _ _]; by auto.
  Qed.
  Lemma cfg_cases (s : sys W M) e :
    cfg (step s e).1 = cfg s ∨ cfg (step s e).1 = wq_config_default ∨ e = EvConfig (cfg (step s e).1).
  Proof.
    assert (cfg (commit prof sched name h s e).1 = cfg s ∨ cfg (commit prof sched name h s e).1 = wq_config_default ∨
      e = EvConfig (cfg (commit prof sched name h s e).1)) as Hc.
    { unfold commit. destruct (run h _ _) as [w [[[[c ts] js] r]| |]] eqn:E; cbn; [|by left..].
      by eapply ev_cfg. }
    unfold sys_step. destruct (alive s); destruct e; try done; try (by left). by destruct e; left.
  Qed.

  Definition within (D : Z) t : Prop :=
    tick_period (cfg (tq t)) <= D ∧ ∀ d, d ∈ timers t → d <= tnow t + D.
  Lemma within_step D t e :
    tick_period wq_config_default <= D → period_within D e → within D t → within D (tstep t e).
  Proof.
    intros HD He [Hc Hd].
    assert (∀ e x, period_within D (TEv e x) → tick_period (cfg (step (tq t) e).1) <= D) as Hcs.
    { intros e' x He'. destruct (cfg_cases (tq t) e') as [->|[->|E]]; try done. destruct e'; try done.
      cbn in He'. injection E as <-. done. }
    destruct e as [x|i x|e x].
    - split; [done|]. cbn. intros d Hin. specialize (Hd d Hin). unfold later. lia.
    - cbn [timed_step]. destruct (expired t i); [|split; [done|]; cbn; intros d Hin; specialize (Hd d Hin); unfold later; lia].
      specialize (Hcs EvTick 0 Logic.I).
      split; [done|]. cbn [timers tnow]. cbv zeta. intros d. destruct (alive _); [|by intros ?%elem_of_nil].
      intros [H|H]%elem_of_app.
      + enough (d <= tnow t + D) by (unfold later; lia). apply Hd. apply elem_of_list_lookup in H as [k Hk].
        apply elem_of_list_lookup. destruct (decide (k < i)%nat).
        * exists k. by rewrite lookup_delete_lt in Hk.
        * exists (S k). by rewrite lookup_delete_ge in Hk by lia.
      + apply elem_of_list_singleton in H as ->. unfold arm. lia.
    - destruct (tstep_ev t e x) as [->|E].
      { split; [done|]. cbn. intros d Hin. specialize (Hd d Hin). unfold later. lia. }
      rewrite E. cbv zeta. specialize (Hcs e x He).
      split; [done|]. cbn [timers tnow]. intros d. destruct (alive (step (tq t) e).1); [|by intros ?%elem_of_nil].
      intros [H|H]%elem_of_app; [specialize (Hd d H); unfold later; lia|]. destruct (alive (tq t)); [by apply elem_of_nil in H|].
      apply elem_of_list_singleton in H as ->. unfold arm. lia.
  Qed.
  Lemma within_run D t es :
    tick_period wq_config_default <= D → Forall (period_within D) es → within D t → within D (trun t es).
  Proof.
    intros HD. revert t. induction es as [|e es IH]; intros t He Hw; [done|].
    apply list.Forall_cons in He as [H1 H2]. rewrite trun_cons. apply IH; [done|]. by apply within_step.
  Qed.
  Lemma within_init D (w : W) : tick_period wq_config_default <= D → within D (timed_init w).
  Proof. intros H. split; [done|]. by intros d ?%elem_of_nil. Qed.

  Lemma throughout_app P t es es' : throughout P t (es ++ es') → throughout P t es ∧ throughout P (trun t es) es'.
  Proof.
    revert t. induction es as [|e es IH]; intros t H; cbn in *.
    - split; [split; [|done]|done]. destruct es'; apply H.
    - destruct H as [H1 H2]. destruct (IH _ H2) as [H3 H4]. by split.
  Qed.
  Lemma throughout_impl (P Q : timed W M → Prop) t es : (∀ t, P t → Q t) → throughout P t es → throughout Q t es.
  Proof.
    intros H. revert t. induction es as [|e es IH]; intros t [H1 H2]; (split; [by apply H|]); [done|]. by apply IH.
  Qed.
  Lemma throughout_head P t es : throughout P t es → P t.
  Proof. by destruct es; intros []. Qed.

  (** While the queue lives and the runtime is punctual, a tick in every window. *)
  Lemma tick_in_window D late t es :
    tick_period wq_config_default <= D → one_timer t → within D t → throughout (punctual late) t es →
    D + late < elapsed es →
    ∃ es1 e es2, es = es1 ++ e :: es2 ∧ ticks_at (trun t es1) e ∧ EvTick ∉ untimed t es1 ∧ elapsed es1 <= D + late.
  Proof.
    intros HD Ho [_ Hw] Hall He. pose proof (throughout_head _ _ _ Hall) as [Ha _].
    assert (∃ d, timers t = [d]) as [d Hd]. { unfold one_timer in Ho. by rewrite Ha in Ho. }
    specialize (Hw d). rewrite Hd in Hw. specialize (Hw ltac:(by apply elem_of_list_singleton)).
    destruct (tick_comes t es d late Ho Hd Hall) as (es1 & e & es2 & E & H1 & H2 & H3); [lia|].
    exists es1, e, es2. split; [done|]. split; [done|]. split; [done|]. lia.
  Qed.

  (** The number of ticks. *)
  Definition count_ticks (es : list (event M)) : nat :=
    length (List.filter (λ e, match e with EvTick => true | _ => false end) es).
  Lemma count_ticks_app a b : count_ticks (a ++ b) = (count_ticks a + count_ticks b)%nat.
  Proof. unfold count_ticks. by rewrite List.filter_app, app_length. Qed.
  Lemma ticks_in_window D late C N t es :
    0 <= late → 0 <= C → tick_period wq_config_default <= D → one_timer t → within D t → Forall (period_within D) es →
    Forall (tick_within C) es →
    throughout (punctual late) t es → Z.of_nat N * (D + late + C) < elapsed es →
    (N <= count_ticks (untimed t es))%nat.
  Proof.
    intros Hl HC HD. revert t es. induction N as [|N IH]; intros t es Ho Hw HE HT Hall He; [lia|].
    assert (0 <= D). { unfold tick_period in HD. lia. }
    destruct (tick_in_window D late t es) as (es1 & e & es2 & -> & Ht & Hn & Hx); try done; [nia|].
    apply throughout_app in Hall as [_ Hall]. destruct Hall as [_ Hall].
    apply Forall_app in HE as [HE1 HE]. apply list.Forall_cons in HE as [HEe HE].
    apply Forall_app in HT as [_ HT]. apply list.Forall_cons in HT as [HTe HT].
    destruct Ht as (i & d & -> & Hi).
    rewrite untimed_app, count_ticks_app. cbn [SpecTimer.untimed]. rewrite Hi.
    specialize (IH (tstep (trun t es1) (TFire i d)) es2).
    enough (N <= count_ticks (untimed (tstep (trun t es1) (TFire i d)) es2))%nat.
    { rewrite count_ticks_app. change (count_ticks [EvTick]) with 1%nat. lia. }
    apply IH; [by apply one_step, one_run|apply within_step; [done|done|by apply within_run]|done|done|done|].
    rewrite elapsed_app in He. cbn [elapsed] in He. cbn in HTe. nia.
  Qed.
End any.

Section response.
  Context {M : Type} `{SM : Serde M} {SO : SerdeOk M}.
  Context (prof : profile).
  Context (sched : string → option (time → option time)).
  Context (name : string).
  Context (clock : nat → time).
  Notation h := (mem_h clock).
  Notation step := (sys_step prof sched name h).
  Notation go := (sys_run prof sched name h).
  Notation after := (after prof sched name clock).
  Notation ok_hist := (ok_hist prof sched name clock).
  Notation trun := (timed_run prof sched name h).
  Notation untimed := (untimed prof sched name h).
  Notation throughout := (throughout prof sched name h).
  Notation qlist := (qlist name).
  Notation stored := (@stored M SM).
  Notation arrivals := (arrivals prof sched name clock).
  Notation init := (timed_init world_empty).
  Implicit Types (es : list (tevent M)).

  Lemma tq_after es : tq (trun init es) = after (untimed init es).
  Proof. apply tq_untimed. Qed.

  Lemma waits_until_tick t es id j :
    all_at name (tq t) → ok_hist (tq t) (untimed t es) → at_ name (tq t) id (PQueued j) →
    Forall (λ e, ¬ disturbs id e) (untimed t es) → EvTick ∉ untimed t es →
    throughout (λ t, alive (tq t) = true) t es →
    all_at name (tq (trun t es)) ∧ at_ name (tq (trun t es)) id (PQueued j).
  Proof.
    revert t. induction es as [|e es IH]; intros t Ha Hok Hp HE Hn Hall; [done|].
    rewrite trun_cons. destruct Hall as [Hal Hall]. cbn [SpecTimer.untimed] in *.
    apply not_elem_of_app in Hn as [Hne Hn]. apply Forall_app in HE as [HEe HE]. apply ok_hist_app in Hok as [Hoe Hok].
    assert (∀ e', tq (timed_step prof sched name h t e) = (step (tq t) e').1 → e' ≠ EvTick → ok_event (tq t) e' →
      ¬ disturbs id e' → all_at name (tq (timed_step prof sched name h t e)) ∧
        at_ name (tq (timed_step prof sched name h t e)) id (PQueued j)) as Hstep.
    { intros e' -> H1 H2 H3. destruct (life_step prof sched name clock (tq t) e' H2 Ha) as [Ha' _]. split; [done|].
      destruct (waiting_step_tick prof sched name clock (tq t) e' id j Ha H2 Hp H3) as [Hp'|[[->| ->] _]]; try done.
      unfold sys_step. by rewrite Hal. }
    assert (all_at name (tq (timed_step prof sched name h t e)) ∧
        at_ name (tq (timed_step prof sched name h t e)) id (PQueued j)) as [Ha' Hp'].
    { destruct e as [x|i x|e x]; [done|..].
      - cbn [timed_step]. destruct (expired t i); [|done]. exfalso. apply Hne. by apply elem_of_list_singleton.
      - destruct e; try (by split); (eapply Hstep; [reflexivity|done|by destruct Hoe|by apply list.Forall_cons in HEe as [? _]]). }
    apply IH; try done.
    replace (tq (timed_step prof sched name h t e)) with (go (tq t) (match e with
        | TPass _ => []
        | TFire i _ => if expired t i then [EvTick] else []
        | TEv EvTick _ => []
        | TEv e _ => [e]
        end)); [done|]. pose proof (tq_untimed prof sched name h t [e]) as H. cbn [SpecTimer.untimed] in H.
    rewrite app_nil_r in H. symmetry. exact H.
  Qed.

  Lemma reads_go (s : sys world M) (es : list (event M)) : (reads (sw s) <= reads (sw (go s es)))%nat.
  Proof.
    revert s. induction es as [|e es IH]; intros s; [cbn; lia|]. rewrite go_cons.
    pose proof (rd_step prof sched name clock s e). specialize (IH (step s e).1). lia.
  Qed.

  Lemma arr_split (s : sys world M) (es es' : list (event M)) :
    (length (qlist (sw (go s es)) Queued) <= length (qlist (sw s) Queued) + arrivals s (es ++ es'))%nat.
  Proof.
    pose proof (arrivals_len prof sched name clock s es) as H.
    rewrite (arrivals_app prof sched name clock). lia.
  Qed.

  Lemma one_period es0 es D late id j :
    let t := trun init es0 in
    ok_hist initial (untimed init (es0 ++ es)) → tick_period wq_config_default <= D →
    Forall (period_within D) (es0 ++ es) → throughout (punctual late) t es → D + late < elapsed es →
    id ∈ qlist (sw (tq t)) Queued → stored (sw (tq t)) id = Some j →
    (∀ k, (reads (sw (tq t)) <= k)%nat → due j (clock k)) →
    Forall (λ e, ¬ submits id e ∧ e ≠ EvCancel id) (untimed t es) →
    Z.of_nat (length (qlist (sw (tq t)) Queued) + arrivals (tq t) (untimed t es)) <= i32_max →
    ∃ es1 e es2, es = es1 ++ e :: es2 ∧ elapsed es1 <= D + late ∧ ticks_at (trun t es1) e ∧
      let s1 := tq (trun t es1) in let s2 := tq (trun t (es1 ++ [e])) in
      id ∈ qlist (sw s2) Running ∨ length (tasks s2) = (length (tasks s1) + free_slots name s1)%nat.
  Proof.
    intros t Hok HD HE Hall He Hin Hs Hdue Hdis Hmax.
    apply Forall_app in HE as [HE0 HE].
    rewrite untimed_app in Hok. apply ok_hist_app in Hok as [Hok0 Hok]. fold t in Hok.
    pose proof (tq_after es0) as Eq. fold t in Eq.
    change (sys_run prof sched name h initial (untimed init es0)) with (after (untimed init es0)) in Hok.
    rewrite <-Eq in Hok.
    assert (all_at name (tq t)) as Ha. { rewrite Eq. by apply all_at_after. }
    destruct (tick_in_window prof sched name h D late t es) as (es1 & e & es2 & -> & Ht & Hn & Hx); try done.
    { by apply one_run, one_init. }
    { apply within_run; [done|done|by apply within_init]. }
    exists es1, e, es2. split; [done|]. split; [done|]. split; [done|]. cbv zeta.
    rewrite untimed_app in *. apply ok_hist_app in Hok as [Hok1 Hok2].
    change (fold_left _ _ _) with (go (tq t) (untimed t es1)) in Hok2.
    apply Forall_app in Hdis as [Hd1 Hd2].
    assert (at_ name (tq t) id (PQueued j)) as Hp.
    { destruct (Ha id) as [p Hp]. apply cnt_pos in Hin.
      destruct p; cbn in Hp; try (destruct Hp as [(E1&E2&E3&E4) Hp] || destruct Hp as (E1&E2&E3&E4); try lia).
      rewrite Hs in E1. injection E1 as ->. done. }
    apply throughout_app in Hall as [Hall1 Hall].
    destruct (waits_until_tick t es1 id j) as [Ha1 Hp1]; try done.
    { eapply list.Forall_impl; [exact Hd1|]. intros e' (H1&H2) [H3|H3]; done. }
    { eapply throughout_impl; [|exact Hall1]. by intros ? []. }
    assert (alive (tq (trun t es1)) = true) as Hal.
    { apply throughout_head in Hall as [H _]. exact H. }
    assert (tq (trun t (es1 ++ [e])) = (step (tq (trun t es1)) EvTick).1) as E2.
    { rewrite trun_app. destruct Ht as (i & d & -> & Hi). cbn. rewrite Hi. done. }
    rewrite E2. set (s1 := tq (trun t es1)) in *.
    assert (Z.of_nat (length (qlist (sw s1) Queued)) <= i32_max) as Hlen.
    { unfold s1. rewrite tq_untimed. etransitivity; [|exact Hmax]. apply inj_le. apply arr_split. }
    destruct (tick_reach prof sched name clock s1 Ha1 Hal Hlen) as (_ & _ & _ & new & T1 & _ & T2 & T3 & T4 & T5).
    destruct T5 as [T5|T5].
    - right. rewrite T1, app_length, map_length, T5. done.
    - left. destruct (waiting_step_tick prof sched name clock s1 EvTick id j Ha1 Logic.I Hp1) as [Hp2|[_ ?]]; [|exfalso|done].
      { by intros [[]|?]. }
      destruct (T5 id) as (j' & k & Ej & _ & Hk & Hnd).
      { apply cnt_pos. destruct Hp2 as [(_&Hc&_) _]. lia. }
      destruct Hp1 as [(Es&_) _]. rewrite Es in Ej. injection Ej as <-. apply Hnd, Hdue.
      pose proof (reads_go (tq t) (untimed t es1)) as Hr. rewrite <-tq_untimed in Hr. fold s1 in Hr. lia.
  Qed.

  Notation free_ticks := (free_ticks prof sched name clock).
  Lemma free_ticks_all t es :
    always_free prof sched name h (free_slots name) t es →
    free_ticks (tq t) (untimed t es) = count_ticks (untimed t es).
  Proof.
    revert t. induction es as [|e es IH]; intros t Hf; [done|]. destruct Hf as [Hf Hfs].
    cbn [SpecTimer.untimed]. rewrite count_ticks_app, (StarveFacts.free_ticks_app prof sched name clock).
    pose proof (tq_untimed prof sched name h t [e]) as H. cbn [SpecTimer.untimed] in H. rewrite app_nil_r in H.
    change (timed_run prof sched name h t [e]) with (timed_step prof sched name h t e) in H. rewrite <-H, IH by done.
    f_equal. clear -Hf. destruct e as [x|i x|e x]; [done|..].
    - destruct (expired t i) eqn:E; [|done]. cbn [Spec.free_ticks]. change (count_ticks [EvTick]) with 1%nat.
      specialize (Hf ltac:(by exists i, x)). cbv beta in Hf. lia.
    - by destruct e.
  Qed.

  Lemma untimed_prefix t es l1 l2 :
    untimed t es = l1 ++ l2 → ∃ es1 es2, es = es1 ++ es2 ∧ untimed t es1 = l1.
  Proof.
    revert t l1. induction es as [|e es IH]; intros t l1 E.
    { exists [], []. split; [done|]. by destruct l1. }
    destruct l1 as [|x l1]; [by exists [], (e :: es)|]. cbn [SpecTimer.untimed] in E.
    match type of E with ?y ++ _ = _ => set (Y := y) in E end.
    assert (Y = [] ∨ ∃ y, Y = [y]) as [EY|[y EY]].
    { unfold Y. destruct e as [d|i d|e d]; [by left|destruct (expired t i); eauto|destruct e; eauto]. }
    - rewrite EY in E. destruct (IH _ _ E) as (es1 & es2 & -> & E1). exists (e :: es1), es2. split; [done|].
      cbn [SpecTimer.untimed]. fold Y. by rewrite EY.
    - rewrite EY in E. injection E as -> E. destruct (IH _ _ E) as (es1 & es2 & -> & E1). exists (e :: es1), es2. split; [done|].
      cbn [SpecTimer.untimed]. fold Y. by rewrite EY, E1.
  Qed.

  Lemma response_time es0 es D late C id j :
    let t := trun init es0 in
    let n := (length (qlist (sw (tq t)) Queued) + arrivals (tq t) (untimed t es))%nat in
    ok_hist initial (untimed init (es0 ++ es)) → tick_period wq_config_default <= D → 0 <= late → 0 <= C →
    Forall (period_within D) (es0 ++ es) → Forall (tick_within C) es → throughout (punctual late) t es →
    always_free prof sched name h (free_slots name) t es → Z.of_nat n * (D + late + C) < elapsed es →
    id ∈ qlist (sw (tq t)) Queued → stored (sw (tq t)) id = Some j →
    (∀ k, (reads (sw (tq t)) <= k)%nat → due j (clock k)) →
    Forall (λ e, ¬ submits id e ∧ e ≠ EvCancel id) (untimed t es) → Z.of_nat n <= i32_max →
    ∃ es1 es2, es = es1 ++ es2 ∧ id ∈ qlist (sw (tq (trun t es1))) Running.
  Proof.
    intros t n Hok HD Hl HC HE HT Hall Hf He Hin Hs Hdue Hdis Hmax.
    apply Forall_app in HE as [HE0 HE]. pose proof (tq_after es0) as Eq. fold t in Eq.
    rewrite untimed_app in Hok. fold t in Hok.
    destruct (no_starvation_after prof sched name clock (untimed init es0) (untimed t es) id j) as (l1 & l2 & E & Hr);
      rewrite <-?Eq; try done.
    { rewrite free_ticks_all by done. eapply (ticks_in_window _ _ _ _ D late C); try done.
      - by apply one_run, one_init.
      - apply within_run; [done|done|by apply within_init]. }
    apply untimed_prefix in E as (es1 & es2 & -> & E1). exists es1, es2. split; [done|].
    rewrite tq_untimed, E1, Eq. unfold Spec.after, sys_run in *. by rewrite fold_left_app in Hr.
  Qed.
End response.
