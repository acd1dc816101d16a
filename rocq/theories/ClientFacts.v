(** Callers in front of the queue: their answers are those of a history of the queue. *)
From Verif Require Import SpecClient SubmitFacts.

Section client.
  Context {M : Type} `{SM : Serde M}.
  Context (prof : profile).
  Context (sched : string → option (time → option time)).
  Context (name : string).
  Context {W : Type} (h : handler W).
  Notation step := (sys_step prof sched name h).
  Notation go := (sys_run prof sched name h).
  Notation fstep := (fstep prof sched name h).
  Notation frun := (front_run prof sched name h).
  Implicit Types (f : front M W) (c : cstate M).

  Lemma steps_from_snoc k tr i o (e : event M) r :
    steps_from k (tr ++ [(o, e, r)]) i =
    steps_from k tr i ++ if decide (o = Some i) then [((k + length tr)%nat, e, r)] else [].
  Proof.
    revert k; induction tr as [|[[o' e'] r'] tr IH]; intros k; cbn.
    - rewrite Nat.add_0_r, app_nil_r. by destruct (decide _).
    - rewrite IH, <-app_assoc. do 3 f_equal. by rewrite Nat.add_succ_r.
  Qed.
  Lemma steps_snoc tr i o (e : event M) r :
    steps_of i (tr ++ [(o, e, r)]) = steps_of i tr ++ if decide (o = Some i) then [(length tr, e, r)] else [].
  Proof. apply steps_from_snoc. Qed.

  (** *** The trace is a history of the queue *)
  Definition events_of f : list (event M) := map (λ x, x.1.2) (trace f).
  Definition is_hist w f : Prop :=
    q f = go (sys_init w) (events_of f) ∧
    ∀ k o e r, trace f !! k = Some (o, e, r) → r = (step (go (sys_init w) (take k (events_of f))) e).2.

  (** Nothing but the queue's steps adds to the trace. *)
  Lemma hist_step w f f' o e :
    is_hist w f → q f' = (step (q f) e).1 → trace f' = trace f ++ [(o, e, (step (q f) e).2)] → is_hist w f'.
  Proof.
    intros [H1 H2] Eq Et. unfold is_hist, events_of. rewrite Eq, Et, map_app. cbn [map fst snd].
    split.
    - unfold sys_run. rewrite fold_left_app. cbn. by rewrite H1.
    - intros k o' e' r' Hk. apply lookup_app_Some in Hk as [Hk|[Hk1 Hk2]].
      + rewrite take_app_le by (rewrite map_length; apply lookup_lt_Some in Hk; lia). by eapply H2.
      + apply list_lookup_singleton_Some in Hk2 as [Hk2 [= <- <- <-]].
        rewrite take_app_alt by (rewrite map_length; lia). by rewrite H1.
  Qed.
  Lemma trace_step f fe :
    (q (fstep f fe) = q f ∧ trace (fstep f fe) = trace f) ∨
    ∃ o e, q (fstep f fe) = (step (q f) e).1 ∧ trace (fstep f fe) = trace f ++ [(o, e, (step (q f) e).2)].
  Proof.
    assert (∀ o b e, q (queue_step prof sched name h f o b e) = (step (q f) e).1 ∧
      trace (queue_step prof sched name h f o b e) = trace f ++ [(o, e, (step (q f) e).2)]) as HQ.
    { intros o b e. unfold queue_step, settle. destruct (step (q f) e) as [s r]. by destruct (alive s). }
    assert (∀ e, q (process_dies prof sched name h f e) = (step (q f) e).1 ∧
      trace (process_dies prof sched name h f e) = trace f ++ [(None, e, (step (q f) e).2)]) as HD.
    { intros e. unfold process_dies. by destruct (step (q f) e) as [s r]. }
    destruct fe as [c|i| | | | |e| |o k]; cbn [Client.fstep].
    - left. destruct c; try done. by destruct (aj_up f).
    - left. destruct (cs f !! i) as [c|]; [|done].
      destruct (c_at c); try done; repeat case_match; done.
    - left. destruct (aj_box f) as [|i b]; [done|]. destruct (cs f !! i) as [c|]; [|done].
      destruct (c_at c); try done. by destruct (known f).
    - by left.
    - destruct (known f && negb (begun f)); [right|by left]. eauto.
    - destruct (q_box f) as [|i b]; [by left|]. destruct (cs f !! i) as [c|]; [|by left].
      destruct (begun f && alive (q f)); [right|by left]. eauto.
    - destruct (begun f && alive (q f) && own_event e); [right|by left]. eauto.
    - right. eauto.
    - destruct o as [e|].
      + destruct (_ || _); [right|by left]. eauto.
      + destruct (q_box f) as [|i b]; [by left|]. destruct (cs f !! i) as [c|]; [|by left].
        destruct (begun f); [right|by left]. eauto.
  Qed.
  Lemma hist_run w f fs : is_hist w f → is_hist w (frun f fs).
  Proof.
    revert f; induction fs as [|fe fs IH]; intros f Hf; [done|]. cbn. apply IH.
    destruct (trace_step f fe) as [[E1 E2]|(o & e & E1 & E2)].
    - unfold is_hist, events_of in *. by rewrite E1, E2.
    - by eapply hist_step.
  Qed.
  Lemma hist_after w fs : is_hist w (frun (front_init w) fs).
  Proof. apply hist_run. split; [done|]. intros k o e r Hk. done. Qed.

  (** *** Calls *)
  Definition pre (c : cstate M) (l : list (nat * event M * response M)) : Prop :=
    match c_upd c with
    | None => l = []
    | Some j' => ∃ id d cx k j, c_call c = CUpdate id d cx ∧ l = [(k, EvGet id, RJob (Some j))] ∧
                   (c_from c <= k)%nat ∧ j' = Job (default (ctx j) cx) d
    end.
  Definition good_call (tr : list (option nat * event M * response M)) (i : nat) (c : cstate M) : Prop :=
    let l := steps_of i tr in
    (c_from c <= length tr)%nat ∧
    match c_at c with
    | Returned r to => explained (c_call c) (c_from c) to r l ∧ (to <= length tr)%nat ∧ fits (c_call c) (c_from c) l
    | Gone => fits (c_call c) (c_from c) l
    | AtInit | InitSent => pre c l ∧ inits c = true
    | _ => pre c l
    end.
  Definition waits f (i : nat) : Prop :=
    ∃ c, cs f !! i = Some c ∧
      (c_at c = MsgSent ∨ c_at c = Gone ∧ (∃ j, c_call c = CJust j) ∧ pre c (steps_of i (trace f))).
  Definition good f : Prop :=
    (∀ i c, cs f !! i = Some c → good_call (trace f) i c) ∧
    (∀ i, (length (cs f) <= i)%nat → steps_of i (trace f) = []) ∧
    Forall (waits f) (q_box f) ∧ NoDup (q_box f).

  Lemma steps_from_lt k tr i n e (r : response M) :
    (n, e, r) ∈ steps_from k tr i → (k <= n < k + length tr)%nat.
  Proof.
    revert k; induction tr as [|[[o' e'] r'] tr IH]; intros k; cbn; [by intros ?%elem_of_nil|].
    rewrite elem_of_app. intros [H|H].
    - destruct (decide _); [|by apply elem_of_nil in H]. apply elem_of_list_singleton in H as [= -> -> ->]. lia.
    - apply IH in H. lia.
  Qed.
  Lemma steps_lt tr i n e (r : response M) : (n, e, r) ∈ steps_of i tr → (n < length tr)%nat.
  Proof. intros H. apply steps_from_lt in H. lia. Qed.

  Lemma pre_fits c l : pre c l → fits (c_call c) (c_from c) l.
  Proof.
    unfold pre, fits. destruct (c_upd c) as [j'|].
    - intros (id & d & cx & k & j & Ec & El & Hk & Ej). right. left. rewrite Ec. cbn. eauto.
    - auto.
  Qed.

  (** The answers of a queue that is not there. *)
  Lemma recv_refused tr i c r :
    pre c (steps_of i tr) → (c_from c <= length tr)%nat →
    r = dead_response (msg_of c) ∨ (r = no_queue c ∧ inits c = false) →
    good_call tr i (recv (length tr) c r).
  Proof.
    intros Hp Hf Hr. pose proof (pre_fits c _ Hp) as Hfit. unfold pre in Hp.
    destruct c as [cl u p fr]. unfold recv, msg_of, goto, no_queue, inits in *. cbn in *.
    destruct u as [j'|].
    - destruct Hp as (id & d & cx & k & j & -> & El & Hk & ->). cbn in *.
      assert (r = RUnit (Err EMailbox)) as -> by (destruct Hr as [->|[_ [=]]]; done).
      split; [done|]. cbn. split; [|auto]. right. right. left. exists k, j. split; [done|]. split; [|done].
      split; [done|]. eapply steps_lt. rewrite El. apply elem_of_list_singleton. done.
    - destruct cl; cbn in *; destruct Hr as [->|[-> Hi]]; try discriminate Hi; cbn.
      all: split; [done|]; cbn; (split; [|split; done]); left; split; [done|]; cbn; auto.
  Qed.

  Lemma recv_answer tr i c r :
    pre c (steps_of i tr) → (c_from c <= length tr)%nat →
    good_call (tr ++ [(Some i, msg_of c, r)]) i (recv (length (tr ++ [(Some i, msg_of c, r)])) c r).
  Proof.
    intros Hp Hf. unfold good_call. rewrite steps_snoc, decide_True by done.
    rewrite app_length. cbn [length]. unfold pre in Hp.
    destruct c as [cl u p fr]. unfold recv, msg_of, goto in *. cbn in *.
    destruct u as [j'|].
    - destruct Hp as (id & d & cx & k & j & -> & El & Hk & ->). cbn in *. rewrite El. cbn.
      assert (k < length tr)%nat as Hlt.
      { eapply steps_lt. rewrite El. apply elem_of_list_singleton. done. }
      split; [lia|]. split; [|split; [lia|]].
      + right. right. right. eexists _, _, _, _. split; [done|]. split; [lia|]. split; [lia|]. by left.
      + right. right. eexists _, _, _, _, _, _, _. split; [done|]. split; [done|]. lia.
    - rewrite Hp. cbn.
      destruct cl; cbn.
      5: { assert (∀ x, (∀ j, x ≠ RJob (Some j)) → explained (CUpdate id d c) fr (length tr + 1) (RUnit (Ok tt))
                [(length tr, EvGet id, x)]) as H1.
           { intros x Hx. right. left. exists (length tr), x. split; [done|]. split; [lia|]. done. }
           assert (∀ x, fits (CUpdate id d c) fr [(length tr, EvGet id, x)]) as H2.
           { intros x. right. left. exists (length tr), x. split; [done|]. lia. }
           destruct r as [?|?|[j|]|]; cbn; (split; [lia|]).
           3: { eexists _, _, _, _, _. split; [done|]. split; [done|]. split; [lia|]. done. }
           all: split; [by apply H1|]; split; [lia|apply H2]. }
      all: split; [lia|]; (split; [|split; [lia|]]);
        [right; eexists _, _; split; [done|]; split; [lia|]; by left
        |right; left; eexists _, _; split; [done|]; lia].
  Qed.
  Lemma recv_died tr i c :
    pre c (steps_of i tr) → (c_from c <= length tr)%nat →
    good_call (tr ++ [(Some i, msg_of c, RNone)]) i
      (recv (length (tr ++ [(Some i, msg_of c, RNone)])) c (dead_response (msg_of c))).
  Proof.
    intros Hp Hf. unfold good_call. rewrite steps_snoc, decide_True by done.
    rewrite app_length. cbn [length]. unfold pre in Hp.
    destruct c as [cl u p fr]. unfold recv, msg_of, goto in *. cbn in *.
    destruct u as [j'|].
    - destruct Hp as (id & d & cx & k & j & -> & El & Hk & ->). cbn in *. rewrite El. cbn.
      assert (k < length tr)%nat as Hlt.
      { eapply steps_lt. rewrite El. apply elem_of_list_singleton. done. }
      split; [lia|]. split; [|split; [lia|]].
      + right. right. right. eexists _, _, _, _. split; [done|]. split; [lia|]. split; [lia|]. by right.
      + right. right. eexists _, _, _, _, _, _, _. split; [done|]. split; [done|]. lia.
    - rewrite Hp. cbn.
      destruct cl; cbn.
      5: { split; [lia|]. split; [|split; [lia|]].
           + right. left. eexists _, _. split; [done|]. split; [lia|]. done.
           + right. left. eexists _, _. split; [done|]. lia. }
      all: split; [lia|]; (split; [|split; [lia|]]);
        [right; eexists _, _; split; [done|]; split; [lia|]; right; split; [done|]; by auto
        |right; left; eexists _, _; split; [done|]; lia].
  Qed.
  Lemma good_call_grow tr i c o e r :
    good_call tr i c → o ≠ Some i → good_call (tr ++ [(o, e, r)]) i c.
  Proof.
    intros [H1 H2] Ho. unfold good_call. rewrite steps_snoc, decide_False, app_nil_r by done.
    rewrite app_length. cbn [length]. split; [lia|]. destruct (c_at c); try done.
    destruct H2 as (? & ? & ?). split; [done|]. split; [lia|done].
  Qed.
  Lemma good_call_goto tr i c p :
    (match c_at c with Returned _ _ | Gone => False | _ => True end) → good_call tr i c →
    (match p with Returned _ _ => False | AtInit | InitSent => inits c = true | _ => True end) →
    good_call tr i (goto c p).
  Proof.
    intros Hat [H1 H2] Hp. split; [done|]. cbn.
    assert (pre c (steps_of i tr)) as H3 by (destruct (c_at c); tauto).
    destruct p; try done. by apply pre_fits.
  Qed.
  Lemma recv_init n tr i c : inits c = true → pre c (steps_of i tr) →
    recv n c (dead_response (msg_of c)) = goto c (Returned (RUnit (Err EMailbox)) n).
  Proof.
    unfold inits, pre, recv, msg_of. destruct (c_upd c) as [j'|].
    - intros _ (id & d & cx & k & j & -> & _). done.
    - by destruct (c_call c).
  Qed.

  Lemma step_dead_none s e :
    alive s = true → alive (step s e).1 = false → (step s e).2 = RNone.
  Proof.
    intros Ha. unfold sys_step. rewrite Ha.
    assert (∀ e, alive (commit prof sched name h s e).1 = false → (commit prof sched name h s e).2 = RNone) as Hc.
    { intros e'. unfold commit. by destruct (run h _ _) as [w [[[[? ?] ?] ?]| |]]. }
    destruct e; try done; apply Hc.
  Qed.

  Notation qstep := (queue_step prof sched name h).
  Notation pdies := (process_dies prof sched name h).

  (** A step of the queue, as a new state of each call. *)
  Lemma grow_unborn f o e r i :
    (∀ i, (length (cs f) <= i)%nat → steps_of i (trace f) = []) →
    (length (cs f) <= i)%nat → o ≠ Some i → steps_of i (trace f ++ [(o, e, r)]) = [].
  Proof. intros H Hi Ho. rewrite steps_snoc, decide_False, app_nil_r by done. by apply H. Qed.

  Lemma gone_fits tr i c e r :
    (∃ j, c_call c = CJust j) → pre c (steps_of i tr) → (c_from c <= length tr)%nat → e = msg_of c →
    fits (c_call c) (c_from c) (steps_of i (tr ++ [(Some i, e, r)])).
  Proof.
    intros [j Ec] Hp Hf ->. rewrite steps_snoc, decide_True by done. unfold pre, msg_of in *. rewrite Ec in *.
    destruct (c_upd c) as [j'|].
    { destruct Hp as (? & ? & ? & ? & ? & [=] & _). }
    rewrite Hp. right. left. eexists _, _. split; [done|]. done.
  Qed.

  Lemma good_queue_step f o box e :
    good f →
    match o with
    | None => box = q_box f
    | Some i => q_box f = i :: box ∧ alive (q f) = true ∧ ∃ c, cs f !! i = Some c ∧ e = msg_of c
    end →
    good (qstep f o box e).
  Proof.
    intros (Hc & Hu & Hw & Hnd) Ho. unfold queue_step, settle. destruct (step (q f) e) as [s r] eqn:Es.
    set (x := (o, e, r)).
    assert (∀ i, o = Some i → (i < length (cs f))%nat) as Hlt.
    { intros i ->. destruct Ho as (_ & _ & c & Ei & _). by eapply lookup_lt_Some. }
    assert (Forall (waits f) box ∧ NoDup box ∧ ∀ i, i ∈ box → o ≠ Some i) as (Hwb & Hnb & Hib).
    { destruct o as [i|].
      - destruct Ho as (Eb & _ & _). rewrite Eb in Hw, Hnd. apply Forall_cons_1 in Hw as [_ Hw].
        apply list.NoDup_cons in Hnd as [Hni Hnd]. split; [done|]. split; [done|].
        intros i' Hi' [= ->]. done.
      - subst box. split; [done|]. split; done. }
    assert (∀ i c, cs f !! i = Some c → o = Some i → c_at c = MsgSent ∨
      c_at c = Gone ∧ (∃ j, c_call c = CJust j) ∧ pre c (steps_of i (trace f))) as Hat.
    { intros i c Ei ->. destruct Ho as (Eb & _ & _). rewrite Eb in Hw. apply Forall_cons_1 in Hw as [(c' & Ec' & Hc') _].
      rewrite Ei in Ec'. injection Ec' as <-. done. }
    assert (∀ i c, cs f !! i = Some c → o = Some i → e = msg_of c ∧ alive (q f) = true) as He.
    { intros i c Ei ->. destruct Ho as (_ & Hal & c' & Ec' & ->). split; [congruence|done]. }
    destruct (alive s) eqn:Eal.
    - (* the queue goes on *)
      set (upd := λ c, match c_at c with MsgSent => recv (length (trace f ++ [x])) c r | _ => c end).
      assert (∀ i c, match o with Some i' => alter upd i' (cs f) | None => cs f end !! i = Some c →
        ∃ c0, cs f !! i = Some c0 ∧ (o = Some i ∧ c = upd c0 ∨ o ≠ Some i ∧ c = c0)) as Hcs.
      { intros i c. destruct o as [i'|]; [|eauto]. destruct (decide (i = i')) as [->|Hne].
        - rewrite list_lookup_alter. destruct (cs f !! i') as [c0|]; cbn; [|done]. intros [= <-]. eauto.
        - rewrite list_lookup_alter_ne by done. intros ->. exists c. split; [done|]. right. split; [congruence|done]. }
      assert (length (match o with Some i' => alter upd i' (cs f) | None => cs f end) = length (cs f)) as Hlen.
      { destruct o; [apply alter_length|done]. }
      split; [|split; [|split]]; cbn.
      + intros i c Hi. destruct (Hcs i c Hi) as (c0 & E0 & [[-> ->]|[Hne ->]]).
        * destruct (He i c0 E0 eq_refl) as [-> _]. pose proof (Hc i c0 E0) as Hg.
          unfold upd. destruct (Hat i c0 E0 eq_refl) as [E|(E & Hj & Hp)]; rewrite E.
          -- destruct Hg as [Hf Hp]. rewrite E in Hp. by apply recv_answer.
          -- destruct Hg as [Hf _]. split; [rewrite app_length; cbn; lia|]. rewrite E. by apply gone_fits.
        * apply good_call_grow; [by apply Hc|done].
      + intros i Hi. rewrite Hlen in Hi. apply grow_unborn; [done|done|]. intros ->. specialize (Hlt i eq_refl). lia.
      + apply list.Forall_forall. intros i Hi. assert (waits f i) as (c & Ec & Hc') by (by eapply list.Forall_forall in Hwb).
        exists c. cbn. split.
        * destruct o as [i'|]; [|done]. rewrite list_lookup_alter_ne; [done|]. intros ->. by apply (Hib i).
        * destruct Hc' as [|(? & ? & ?)]; [by left|right]. split; [done|]. split; [done|].
          fold (steps_of i (trace f ++ [x])). unfold x. rewrite steps_snoc, decide_False, app_nil_r by (by apply Hib). done.
      + done.
    - (* the queue dies *)
      split; [|split; [|split]]; cbn.
      + intros i c Hi. rewrite list_lookup_fmap in Hi. destruct (cs f !! i) as [c0|] eqn:E0; [|done]. cbn in Hi.
        injection Hi as <-. pose proof (Hc i c0 E0) as Hg. destruct (decide (o = Some i)) as [->|Hne].
        * destruct (He i c0 E0 eq_refl) as [-> Hq].
          assert (r = RNone) as ->.
          { pose proof (step_dead_none (q f) (msg_of c0) Hq) as Hn. rewrite Es in Hn. by apply Hn. }
          unfold orphaned, x. destruct (Hat i c0 E0 eq_refl) as [E|(E & Hj & Hp)]; rewrite E.
          -- destruct Hg as [Hf Hp]. rewrite E in Hp. by apply recv_died.
          -- destruct Hg as [Hf _]. split; [rewrite app_length; cbn; lia|]. rewrite E. by apply gone_fits.
        * unfold orphaned. pose proof (good_call_grow _ _ _ o e r Hg Hne) as Hg'. fold x in Hg'.
          destruct (c_at c0) eqn:E; try done.
          destruct Hg' as [Hf Hp]. rewrite E in Hp. apply recv_refused; auto.
      + intros i Hi. rewrite fmap_length in Hi. apply grow_unborn; [done|done|]. intros ->. specialize (Hlt i eq_refl). lia.
      + constructor.
      + constructor.
  Qed.

  Lemma good_process_dies f e : good f → good (pdies f e).
  Proof.
    intros (Hc & Hu & _). unfold process_dies. destruct (step (q f) e) as [s r].
    split; [|split; [|split; constructor]]; cbn.
    - intros i c Hi. rewrite list_lookup_fmap in Hi. destruct (cs f !! i) as [c0|] eqn:E0; [|done]. cbn in Hi.
      injection Hi as <-. pose proof (good_call_grow _ _ _ None e r (Hc i c0 E0) ltac:(done)) as Hg.
      unfold lose_all. destruct (c_at c0) eqn:E; try done; try (by apply good_call_goto; rewrite ?E).
      destruct Hg as [Hg1 Hg2]. split; [done|]. cbn. by rewrite E in Hg2.
    - intros i Hi. rewrite fmap_length in Hi. by apply grow_unborn.
  Qed.

  (** A call that does something that is not a step of the queue. *)
  Lemma good_set f f' i c c' :
    good f → cs f !! i = Some c → (match c_at c with Returned _ _ | Gone | MsgSent => False | _ => True end) →
    cs f' = <[i := c']> (cs f) → trace f' = trace f → good_call (trace f) i c' →
    q_box f' = q_box f ∨ (q_box f' = q_box f ++ [i] ∧ c_at c' = MsgSent) →
    good f'.
  Proof.
    intros (Hc & Hu & Hw & Hnd) Ei Hat Ecs Etr Hg Hbox.
    assert (i ∉ q_box f) as Hni.
    { intros Hin. assert (waits f i) as (c1 & E1 & H1) by (by eapply list.Forall_forall in Hw).
      rewrite Ei in E1. injection E1 as <-. destruct H1 as [E|[E _]]; by rewrite E in Hat. }
    assert (∀ i', waits f i' → i' ≠ i → waits f' i') as Hw'.
    { intros i' (c1 & E1 & H1) Hne. exists c1. rewrite Ecs, Etr, list_lookup_insert_ne by done. done. }
    split; [|split; [|split]].
    - intros i' c1. rewrite Ecs, Etr. destruct (decide (i' = i)) as [->|Hne].
      + rewrite list_lookup_insert by (by eapply lookup_lt_Some). by intros [= <-].
      + rewrite list_lookup_insert_ne by done. apply Hc.
    - intros i' Hi'. rewrite Etr. rewrite Ecs, insert_length in Hi'. by apply Hu.
    - assert (Forall (waits f') (q_box f)) as Hb.
      { apply list.Forall_forall. intros i' Hi'. apply Hw'; [by eapply list.Forall_forall in Hw|]. by intros ->. }
      destruct Hbox as [->|[-> Hm]]; [done|]. apply Forall_app. split; [done|]. constructor; [|constructor].
      exists c'. rewrite Ecs, list_lookup_insert by (by eapply lookup_lt_Some). split; [done|by left].
    - destruct Hbox as [->|[-> Hm]]; [done|]. apply NoDup_app. split; [done|]. split; [|apply NoDup_singleton].
      intros i' Hi' ->%elem_of_list_singleton. done.
  Qed.

  Lemma good_new f (c : call M) p : good f → (match p with Returned _ _ | AtInit | InitSent => False | _ => True end) →
    ∀ f', cs f' = cs f ++ [CState c None p (length (trace f))] → trace f' = trace f → q_box f' = q_box f → good f'.
  Proof.
    intros (Hc & Hu & Hw & Hnd) Hp f' Ecs Etr Eb.
    split; [|split; [|split]].
    - intros i c1. rewrite Ecs, Etr. intros [Hi|[Hi1 Hi2]]%lookup_app_Some; [by apply Hc|].
      apply list_lookup_singleton_Some in Hi2 as [Hi2 <-]. split; [done|]. cbn.
      assert (steps_of i (trace f) = []) as E by (apply Hu; lia). rewrite E.
      destruct p; try done. by left.
    - intros i. rewrite Ecs, Etr, app_length. cbn. intros Hi. apply Hu. lia.
    - rewrite Eb. eapply list.Forall_impl; [exact Hw|]. intros i (c1 & E1 & H1). exists c1.
      rewrite Ecs, Etr. split; [by apply lookup_app_l_Some|done].
    - by rewrite Eb.
  Qed.

  Lemma good_lose_aj f k b :
    good f →
    good (Front (q f) k (begun f) (q_box f) false b (lose_aj (length (trace f)) <$> cs f) (trace f)).
  Proof.
    intros (Hc & Hu & Hw & Hnd). split; [|split; [|split]]; cbn.
    - intros i c Hi. rewrite list_lookup_fmap in Hi. destruct (cs f !! i) as [c0|] eqn:E0; [|done]. cbn in Hi.
      injection Hi as <-. pose proof (Hc i c0 E0) as Hg. unfold lose_aj.
      assert (match c_at c0 with Returned _ _ | Gone => False | _ => True end → good_call (trace f) i (goto c0 Gone)) as H1.
      { intros H. by apply good_call_goto. }
      assert (c_at c0 = InitSent → good_call (trace f) i (goto c0 (Returned (RUnit (Err EMailbox)) (length (trace f))))) as H2.
      { intros E. destruct Hg as [Hf Hg]. rewrite E in Hg. destruct Hg as [Hp Hin].
        erewrite <-recv_init by done. apply recv_refused; auto. }
      destruct (c_at c0) eqn:Eat; try done.
      1-6: destruct (c_call c0); auto.
      destruct (c_call c0); try done. split; [by destruct Hg|]. destruct Hg as [_ Hg]. by rewrite Eat in Hg.
    - intros i Hi. rewrite fmap_length in Hi. by apply Hu.
    - eapply list.Forall_impl; [exact Hw|]. intros i (c & Ec & Hp). unfold waits. cbn.
      rewrite list_lookup_fmap, Ec. cbn. eexists. split; [done|]. pose proof (Hc i c Ec) as [_ Hg].
      destruct Hp as [E|(E & [j Hj] & Hp)].
      + unfold lose_aj. rewrite E in *. destruct (c_call c) eqn:Ecall; try (by left).
        right. cbn. split; [done|]. split; [rewrite Ecall; eauto|done].
      + right. unfold lose_aj. rewrite E, Hj. cbn. split; [done|]. split; [eauto|done].
    - done.
  Qed.

  Lemma good_step f fe : good f → good (fstep f fe).
  Proof.
    intros Hg. pose proof Hg as (Hc & Hu & Hw & Hnd).
    destruct fe as [c|i| | | | |e| |o k]; cbn [Client.fstep].
    - assert (∀ (c : call M) p f', (match p with Returned _ _ | AtInit | InitSent => False | _ => True end) →
        cs f' = cs f ++ [CState c None p (length (trace f))] → trace f' = trace f → q_box f' = q_box f → good f') as Hn.
      { intros c' p f' Hp. by apply good_new. }
      destruct c; try (by eapply (Hn _ AtLookup)); [].
      destruct (aj_up f); [by apply (Hn (CJust j) AtSpawn)|by apply (Hn (CJust j) Gone)].
    - destruct (cs f !! i) as [c|] eqn:Ei; [|done]. pose proof (Hc i c Ei) as [Hfr Hgc].
      destruct (c_at c) eqn:Eat; try done.
      + destruct (known f); [|destruct (inits c) eqn:Ein].
        * eapply (good_set f _ i c); [done|done|by rewrite Eat|done|done| |by left].
          apply good_call_goto; [by rewrite Eat| |done]. by apply Hc.
        * eapply (good_set f _ i c); [done|done|by rewrite Eat|done|done| |by left].
          apply good_call_goto; [by rewrite Eat| |done]. by apply Hc.
        * eapply (good_set f _ i c); [done|done|by rewrite Eat|done|done| |by left].
          apply recv_refused; auto.
      + destruct (aj_up f).
        * eapply (good_set f _ i c); [done|done|by rewrite Eat|done|done| |by left].
          apply good_call_goto; [by rewrite Eat|by apply Hc|]. by destruct Hgc.
        * eapply (good_set f _ i c); [done|done|by rewrite Eat|done|done| |by left].
          destruct Hgc as [Hp Hin]. erewrite <-recv_init by done. apply recv_refused; auto.
      + destruct (mailbox_open f).
        * eapply (good_set f _ i c); [done|done|by rewrite Eat|done|done| |by right].
          apply good_call_goto; [by rewrite Eat| |done]. by apply Hc.
        * eapply (good_set f _ i c); [done|done|by rewrite Eat|done|done| |by left].
          apply recv_refused; auto.
    - destruct (aj_box f) as [|i b]; [done|]. destruct (cs f !! i) as [c|] eqn:Ei; [|done].
      destruct (c_at c) eqn:Eat; try done.
      + eapply (good_set f _ i c); [done|done|by rewrite Eat|done|done| |by left].
        apply good_call_goto; [by rewrite Eat| |done]. by apply Hc.
      + destruct (known f).
        * by apply good_lose_aj.
        * eapply (good_set f _ i c); [done|done|by rewrite Eat|done|done| |by left].
          apply good_call_goto; [by rewrite Eat| |done]. by apply Hc.
    - by apply good_lose_aj.
    - destruct (known f && negb (begun f)); [|done]. by apply good_queue_step.
    - destruct (q_box f) as [|i b] eqn:Eb; [done|]. destruct (cs f !! i) as [c|] eqn:Ei; [|done].
      destruct (begun f && alive (q f)) eqn:Eal; [|done]. apply andb_true_iff in Eal as [_ Eal].
      apply good_queue_step; [done|]. rewrite Eb. eauto.
    - destruct (begun f && alive (q f) && own_event e); [|done]. by apply good_queue_step.
    - by apply good_process_dies.
    - destruct o as [e|].
      + destruct (_ || _); [|done]. by apply good_process_dies.
      + destruct (q_box f) as [|i b]; [done|]. destruct (cs f !! i) as [c|]; [|done].
        destruct (begun f); [|done]. by apply good_process_dies.
  Qed.

  Lemma good_run f fs : good f → good (frun f fs).
  Proof. revert f; induction fs as [|fe fs IH]; intros f Hf; [done|]. cbn. by apply IH, good_step. Qed.
  Lemma good_after w fs : good (frun (front_init w) fs).
  Proof. apply good_run. split; [by intros i c|]. split; [done|]. split; constructor. Qed.

  Lemma calls_explained w fs i c :
    let f := frun (front_init w) fs in
    cs f !! i = Some c →
    fits (c_call c) (c_from c) (steps_of i (trace f)) ∧
    ∀ r to, c_at c = Returned r to →
      explained (c_call c) (c_from c) to r (steps_of i (trace f)) ∧ (to <= length (trace f))%nat.
  Proof.
    intros f Hi. destruct (good_after w fs) as (Hc & _). destruct (Hc i c Hi) as [_ Hg]. split.
    - destruct (c_at c); try (by apply pre_fits); try tauto. all: destruct Hg as [Hp _]; by apply pre_fits.
    - intros r to E. rewrite E in Hg. tauto.
  Qed.

  Lemma explained_after (c : call M) (from to : nat) r l (k : nat) (e : event M) (x : response M) :
    explained c from to r l → (k, e, x) ∈ l → (from <= k < to)%nat.
  Proof.
    assert (∀ c : call M, (l = [] ∧ refusal c r ∨ (∃ k x, l = [(k, request c, x)] ∧ (from <= k < to)%nat ∧
      (r = x ∨ x = RNone ∧ refusal c r))) → (k, e, x) ∈ l → (from <= k < to)%nat) as H1.
    { intros c' [[-> _]|(k' & x' & -> & Hk & _)]; [by intros ?%elem_of_nil|].
      by intros [= -> -> ->]%elem_of_list_singleton. }
    destruct c as [j0 ec|j0|id|id|id d cx|id|cf]; [apply (H1 (CRun j0 ec))|apply (H1 (CJust j0))|
      apply (H1 (CCancel id))|apply (H1 (CGet id))| |apply (H1 (CRetry id))|apply (H1 (CConfig cf))]. cbn.
    intros [[-> _]|[(k1 & x1 & -> & Hk & _)|[(k1 & j & -> & Hk & _)|(k1 & j & k2 & x1 & -> & Hk & Hk2 & _)]]].
    - by intros ?%elem_of_nil.
    - by intros [= -> -> ->]%elem_of_list_singleton.
    - by intros [= -> -> ->]%elem_of_list_singleton.
    - rewrite elem_of_cons, elem_of_list_singleton. intros [[= -> -> ->]|[= -> -> ->]]; lia.
  Qed.
  Lemma fits_from (c : call M) (from : nat) l (k : nat) (e : event M) (x : response M) : fits c from l → (k, e, x) ∈ l → (from <= k)%nat.
  Proof.
    intros [->|[(k' & x' & -> & Hk)|(id & d & cx & k1 & j & k2 & x' & _ & -> & Hk)]].
    - by intros ?%elem_of_nil.
    - by intros [= -> -> ->]%elem_of_list_singleton.
    - rewrite elem_of_cons, elem_of_list_singleton. intros [[= -> -> ->]|[= -> -> ->]]; lia.
  Qed.
  Lemma steps_from_elem k tr (i n : nat) (e : event M) (r : response M) :
    (n, e, r) ∈ steps_from k tr i ↔ (k <= n)%nat ∧ tr !! (n - k)%nat = Some (Some i, e, r).
  Proof.
    revert k; induction tr as [|[[o' e'] r'] tr IH]; intros k; cbn.
    - rewrite lookup_nil. split; [by intros ?%elem_of_nil|intros [_ [=]]].
    - rewrite elem_of_app, IH. destruct (decide (n = k)) as [->|Hne].
      + rewrite Nat.sub_diag. cbn. destruct (decide (o' = Some i)) as [->|Ho].
        * rewrite elem_of_list_singleton. split; [intros [[= -> ->]|[? _]]; [done|lia]|intros [_ [= -> ->]]; by left].
        * split; [intros [?%elem_of_nil|[? _]]; [done|lia]|intros [_ [= -> -> ->]]; done].
      + split.
        * intros [H|[H1 H2]].
          -- destruct (decide _); [|by apply elem_of_nil in H]. apply elem_of_list_singleton in H as [= -> -> ->]. done.
          -- split; [lia|]. replace (n - k)%nat with (S (n - S k)) by lia. done.
        * intros [H1 H2]. right. split; [lia|]. replace (n - k)%nat with (S (n - S k)) in H2 by lia. done.
  Qed.
  Lemma steps_elem tr (i n : nat) (e : event M) (r : response M) : (n, e, r) ∈ steps_of i tr ↔ tr !! n = Some (Some i, e, r).
  Proof. unfold steps_of. rewrite steps_from_elem, Nat.sub_0_r. split; [tauto|]. split; [lia|done]. Qed.

  Lemma calls_in_order w fs i1 i2 c1 c2 r1 to1 k1 e1 x1 k2 e2 x2 :
    let f := frun (front_init w) fs in
    cs f !! i1 = Some c1 → cs f !! i2 = Some c2 →
    c_at c1 = Returned r1 to1 → (to1 <= c_from c2)%nat →
    trace f !! k1 = Some (Some i1, e1, x1) → trace f !! k2 = Some (Some i2, e2, x2) → (k1 < k2)%nat.
  Proof.
    intros f H1 H2 E1 Hle T1 T2. apply steps_elem in T1, T2.
    destruct (calls_explained w fs i1 c1 H1) as [_ Hx]. destruct (Hx r1 to1 E1) as [Hx1 _].
    destruct (calls_explained w fs i2 c2 H2) as [Hf2 _].
    pose proof (explained_after _ _ _ _ _ _ _ _ Hx1 T1). pose proof (fits_from _ _ _ _ _ _ Hf2 T2). lia.
  Qed.

  Lemma calls_stay_at f i (c c' : cstate M) :
    cs f !! i = Some c → c_call c' = c_call c → c_call <$> <[i := c']> (cs f) = c_call <$> cs f.
  Proof.
    intros H E. rewrite list_fmap_insert. apply list_insert_id. by rewrite list_lookup_fmap, H, E.
  Qed.
  Lemma call_recv n c r : c_call (recv n c r) = c_call c.
  Proof. unfold recv, goto. by repeat case_match. Qed.
  Lemma call_lose_all c : c_call (lose_all c) = c_call c.
  Proof. unfold lose_all, goto. by repeat case_match. Qed.
  Lemma calls_stay f fe : ∃ l, c_call <$> cs (fstep f fe) = (c_call <$> cs f) ++ l.
  Proof.
    assert (∀ l, c_call <$> l = c_call <$> cs f → ∃ l', c_call <$> l = (c_call <$> cs f) ++ l') as H0.
    { intros l ->. exists []. by rewrite app_nil_r. }
    assert (∀ g (l : list (cstate M)), (∀ c : cstate M, c_call (g c) = c_call c) → c_call <$> (g <$> l) = c_call <$> l) as HM.
    { intros g l Hg. rewrite <-list_fmap_compose. apply list_fmap_ext. intros ? c _. apply Hg. }
    assert (∀ i (c c' : cstate M), cs f !! i = Some c → c_call c' = c_call c →
      ∃ l', c_call <$> <[i := c']> (cs f) = (c_call <$> cs f) ++ l') as HI.
    { intros i c c' H E. apply H0. by eapply calls_stay_at. }
    assert (∀ o b e, ∃ l, c_call <$> cs (qstep f o b e) = (c_call <$> cs f) ++ l) as HQ.
    { intros o b e. unfold queue_step, settle. destruct (step (q f) e) as [s r]. destruct (alive s); cbn [cs].
      - destruct o as [i|]; [|by apply H0]. apply H0. apply list_eq. intros n. rewrite !list_lookup_fmap.
        destruct (decide (i = n)) as [->|Hn]; [|by rewrite list_lookup_alter_ne].
        rewrite list_lookup_alter. destruct (cs f !! n) as [c|]; [|done]. cbn. f_equal.
        destruct (c_at c); try done. apply call_recv.
      - apply H0, HM. intros c. unfold orphaned. destruct (c_at c); try done. apply call_recv. }
    assert (∀ e, ∃ l, c_call <$> cs (pdies f e) = (c_call <$> cs f) ++ l) as HD.
    { intros e. unfold process_dies. destruct (step (q f) e) as [s r]. cbn [cs]. apply H0, HM, call_lose_all. }
    assert (∃ l, c_call <$> cs (aj_gone f) = (c_call <$> cs f) ++ l) as HA.
    { cbn [cs aj_gone]. apply H0, HM. intros c. unfold lose_aj, goto. by repeat case_match. }
    destruct fe as [c|i| | | | |e| |o k]; cbn [Client.fstep].
    - assert (∀ f' c', cs f' = cs f ++ [c'] → ∃ l, c_call <$> cs f' = (c_call <$> cs f) ++ l) as HC.
      { intros f' c' ->. rewrite fmap_app. eauto. }
      destruct c; try (by eapply HC). destruct (aj_up f); by eapply HC.
    - destruct (cs f !! i) as [c|] eqn:Ei; [|by apply H0].
      destruct (c_at c); try (by apply H0); repeat case_match; cbn [cs set_cs]; eapply HI; try done; apply call_recv.
    - destruct (aj_box f) as [|i b]; [by apply H0|]. destruct (cs f !! i) as [c|] eqn:Ei; [|by apply H0].
      destruct (c_at c); try (by apply H0); [by eapply HI|]. destruct (known f); [done|]. by eapply HI.
    - done.
    - destruct (known f && negb (begun f)); [done|by apply H0].
    - destruct (q_box f) as [|i b]; [by apply H0|]. destruct (cs f !! i) as [c|]; [|by apply H0].
      destruct (begun f && alive (q f)); [done|by apply H0].
    - destruct (begun f && alive (q f) && own_event e); [done|by apply H0].
    - done.
    - destruct o as [e|].
      + destruct (_ || _); [done|by apply H0].
      + destruct (q_box f) as [|i b]; [by apply H0|]. destruct (cs f !! i) as [c|]; [|by apply H0].
        destruct (begun f); [done|by apply H0].
  Qed.
  Lemma sends_known f i c : good f → cs f !! i = Some c → i ∈ q_box f → may_send (c_call c) (msg_of c).
  Proof.
    intros (Hg & _ & Hw & _) Hi Hb. rewrite list.Forall_forall in Hw. destruct (Hw i Hb) as (c' & E & Hc).
    assert (c' = c) as -> by congruence. specialize (Hg i c Hi).
    assert (pre c (steps_of i (trace f))) as Hp.
    { destruct Hc as [Hc|(_ & _ & Hc)]; [|done]. destruct Hg as [_ Hg]. by rewrite Hc in Hg. }
    unfold pre in Hp. unfold msg_of, may_send. destruct (c_upd c) as [j|].
    - destruct Hp as (id & d & cx & _ & j' & -> & _ & _ & ->). right. eauto 10.
    - left. by destruct (c_call c).
  Qed.
  Lemma by_itself_more l l' (e : event M) : by_itself l e → by_itself (l ++ l') e.
  Proof.
    destruct e as [| | | | | | | | |e n|]; try done. cbn.
    destruct e; try done; intros (c0 & Hc & H); exists c0; (split; [apply elem_of_app; by left|done]).
  Qed.
  Lemma own_steps w fs k o e r :
    let f := frun (front_init w) fs in
    trace f !! k = Some (o, e, r) →
    match o with Some i => is_Some (cs f !! i) | None => by_itself (c_call <$> cs f) e end.
  Proof.
    intros f Hk. destruct o as [i|].
    - destruct (good_after w fs) as (_ & Hu & _). apply lookup_lt_is_Some. apply Nat.nle_gt. intros Hle.
      specialize (Hu i Hle). apply steps_elem in Hk. subst f. rewrite Hu in Hk. by apply elem_of_nil in Hk.
    - revert k e r Hk. subst f. induction fs as [|fe fs IH] using rev_ind; [done|]. intros k e r.
      assert (frun (front_init w) (fs ++ [fe]) = fstep (frun (front_init w) fs) fe) as ->.
      { unfold front_run. by rewrite fold_left_app. }
      pose proof (good_after w fs) as Hgood.
      set (f := frun (front_init w) fs) in *.
      destruct (calls_stay f fe) as [l ->]. intros H. apply by_itself_more. revert H.
      assert (∀ o b e', match o with None => by_itself (c_call <$> cs f) e' | _ => True end →
        trace (qstep f o b e') !! k = Some (None, e, r) → by_itself (c_call <$> cs f) e) as HQ.
      { intros o b e' He'. unfold queue_step, settle. destruct (step (q f) e') as [s r'].
        assert ((trace f ++ [(o, e', r')]) !! k = Some (None, e, r) → by_itself (c_call <$> cs f) e) as H0.
        { intros [H|[_ H]]%lookup_app_Some; [by eapply IH|].
          apply list_lookup_singleton_Some in H as [_ [= -> -> _]]. done. }
        by destruct (alive s). }
      assert (∀ e', by_itself (c_call <$> cs f) e' →
        trace (pdies f e') !! k = Some (None, e, r) → by_itself (c_call <$> cs f) e) as HD.
      { intros e' He'. unfold process_dies. destruct (step (q f) e') as [s r']. cbn [trace].
        intros [H|[_ H]]%lookup_app_Some; [by eapply IH|].
        apply list_lookup_singleton_Some in H as [_ [= -> _]]. done. }
      destruct fe as [c|i| | | | |e'| |o n]; cbn [Client.fstep].
      + destruct c; try apply IH. destruct (aj_up f); apply IH.
      + destruct (cs f !! i) as [c|]; [|apply IH]. destruct (c_at c); try apply IH; repeat case_match; apply IH.
      + destruct (aj_box f) as [|i b]; [apply IH|]. destruct (cs f !! i) as [c|]; [|apply IH].
        destruct (c_at c); try apply IH. destruct (known f); apply IH.
      + apply IH.
      + destruct (known f && negb (begun f)); [|apply IH]. by apply HQ.
      + destruct (q_box f) as [|i b]; [apply IH|]. destruct (cs f !! i) as [c|]; [|apply IH].
        destruct (begun f && alive (q f)); [|apply IH]. by apply HQ.
      + destruct (begun f && alive (q f) && own_event e') eqn:Eo; [|apply IH]. apply HQ.
        apply andb_true_iff in Eo as [_ Eo]. by destruct e'.
      + by apply HD.
      + destruct o as [e'|].
        * destruct (_ || _) eqn:Eo; [|apply IH]. apply HD. apply orb_true_iff in Eo as [Eo|Eo].
          -- by destruct e'.
          -- apply andb_true_iff in Eo as [_ Eo]. by destruct e'.
        * destruct (q_box f) as [|i b] eqn:Eb; [apply IH|]. destruct (cs f !! i) as [c|] eqn:Ei; [|apply IH].
          destruct (begun f); [|apply IH]. apply HD.
          pose proof (sends_known f i c Hgood Ei ltac:(rewrite Eb; by left)) as Hs.
          assert (∃ c' : call M, c' ∈ (c_call <$> cs f) ∧ may_send c' (msg_of c)) as H.
          { exists (c_call c). split; [|done]. apply elem_of_list_fmap. exists c. split; [done|].
            by eapply elem_of_list_lookup_2. }
          cbn [by_itself]. by destruct (msg_of c).
  Qed.

  (** *** Before the queue is registered *)
  Definition settled c : Prop :=
    match c_at c with Returned _ _ | Gone => True | AtLookup => submits_call (c_call c) = false ∧ c_upd c = None
    | _ => False end.
  Definition quiet (s0 : sys W M) f : Prop :=
    known f = false ∧ begun f = false ∧ q_box f = [] ∧ Forall settled (cs f) ∧
    alive (q f) = false ∧ sw (q f) = sw s0 ∧ runs (q f) = runs s0.
  Lemma quiet_step s0 f fe :
    quiet s0 f → (∀ c : call M, fe = FCall c → submits_call c = false) → quiet s0 (fstep f fe).
  Proof.
    intros (Hk & Hb & Hq & Hs & Ha & Hw & Hr) Hfe.
    destruct fe as [c|i| | | | |e| |o k]; cbn [Client.fstep].
    - specialize (Hfe c eq_refl). destruct c; try done; (repeat split; try done);
        apply Forall_app; (split; [done|]); by constructor.
    - destruct (cs f !! i) as [c|] eqn:Ei; [|done].
      assert (settled c) as Hc by (by eapply Forall_lookup_1 in Hs).
      unfold settled in Hc. destruct (c_at c) eqn:Eat; try done. rewrite Hk. destruct Hc as [Hc Hu].
      assert (inits c = false) as ->.
      { unfold inits. rewrite Hu. by destruct (c_call c). }
      repeat split; try done. cbn. apply Forall_insert; [done|].
      unfold recv, no_queue. rewrite Hu. by destruct (c_call c).
    - destruct (aj_box f) as [|i b]; [done|]. destruct (cs f !! i) as [c|] eqn:Ei; [|done].
      assert (settled c) as Hc by (by eapply Forall_lookup_1 in Hs).
      unfold settled in Hc. destruct (c_at c); try done.
    - repeat split; try done. cbn. apply Forall_fmap. eapply list.Forall_impl; [exact Hs|]. intros c Hc.
      unfold compose, settled, lose_aj in *. destruct (c_at c) eqn:Eat; try done;
        try (rewrite Eat; done); destruct (c_call c) eqn:Ec; cbn; rewrite ?Eat, ?Ec; done.
    - by rewrite Hk.
    - by rewrite Hq.
    - by rewrite Hb.
    - unfold process_dies, sys_step. rewrite Ha. repeat split; try done. cbn.
      apply Forall_fmap. eapply list.Forall_impl; [exact Hs|]. intros c Hc. unfold compose, settled, lose_all in *.
      by destruct (c_at c) eqn:E; cbn; rewrite ?E.
    - destruct o as [e|].
      + rewrite Hk, andb_false_r, orb_false_r.
        destruct (own_event e) eqn:Eo; [|done].
        unfold process_dies, sys_step. rewrite Ha.
        assert ((match e with EvStart => False | _ => True end)) as Hes by (by destruct e).
        destruct e; try done; (repeat split; try done); cbn; apply Forall_fmap;
          (eapply list.Forall_impl; [exact Hs|]); intros c Hc; unfold compose, settled, lose_all in *;
          by destruct (c_at c) eqn:E; cbn; rewrite ?E.
      + by rewrite Hq.
  Qed.
  Lemma quiet_run s0 f fs :
    quiet s0 f → (∀ c : call M, FCall c ∈ fs → submits_call c = false) → quiet s0 (frun f fs).
  Proof.
    revert f; induction fs as [|fe fs IH]; intros f Hf Hfs; [done|]. cbn. apply IH.
    - apply quiet_step; [done|]. intros c ->. apply Hfs. by left.
    - intros c Hc. apply Hfs. by right.
  Qed.
  Lemma quiet_crash f : quiet (q f) (fstep f FCrash).
  Proof.
    cbn [Client.fstep]. unfold process_dies, sys_step.
    assert (Forall settled (lose_all <$> cs f)) as Hs.
    { apply Forall_fmap, Forall_true. intros c. unfold compose, settled, lose_all.
      by destruct (c_at c) eqn:E; cbn; rewrite ?E. }
    by destruct (alive (q f)) eqn:Ea.
  Qed.
  Lemma refused f i c :
    cs f !! i = Some c → c_at c = AtLookup → c_upd c = None → known f = false →
    submits_call (c_call c) = false →
    fstep f (FGo i) = set_cs f (<[i := goto c (Returned (match c_call c with
                                                         | CGet _ => RJob None
                                                         | CUpdate _ _ _ => RUnit (Ok tt)
                                                         | CRetry _ => RBool (Err ENoQueueRegister)
                                                         | _ => RUnit (Err ENoQueueRegister)
                                                         end) (length (trace f)))]> (cs f)).
  Proof.
    intros Hi Hat Hu Hk Hs. cbn [Client.fstep]. rewrite Hi, Hat, Hk. unfold inits, recv, no_queue. rewrite Hu.
    by destruct (c_call c).
  Qed.
  Lemma quiet_started f : just_started prof sched name h f → ∃ s0, quiet s0 f.
  Proof. intros [[w ->]|[f0 ->]]; [exists (sys_init w); repeat split; constructor|eexists; apply quiet_crash]. Qed.
  Lemma idle_until_submission f fs :
    let f' := frun f fs in
    just_started prof sched name h f →
    (∀ c : call M, FCall c ∈ fs → submits_call c = false) →
    sw (q f') = sw (q f) ∧ runs (q f') = runs (q f) ∧ alive (q f') = false ∧ known f' = false.
  Proof.
    cbv zeta. intros [s0 Hq]%quiet_started H.
    pose proof Hq as (_ & _ & _ & _ & _ & Hw & Hr).
    destruct (quiet_run _ _ fs Hq H) as (Hk & _ & _ & _ & Ha & Hw' & Hr').
    by rewrite Hw', Hr', Hw, Hr.
  Qed.
  Lemma started_up f : just_started prof sched name h f → aj_up f = true ∧ aj_box f = [].
  Proof.
    intros [[w ->]|[f0 ->]]; [done|]. cbn [Client.fstep]. unfold process_dies. by destruct (step (q f0) EvCrash).
  Qed.

  (** The first submission after that starts the queue. *)
  Lemma first_run f j ec :
    just_started prof sched name h f →
    let i := length (cs f) in
    let s0 := (step (q f) EvStart).1 in
    let f' := frun f [FCall (CRun j ec); FGo i; FGo i; FAj; FGo i; FBegin; FHandle] in
    alive s0 = true →
    trace f' = trace f ++ [(None, EvStart, (step (q f) EvStart).2);
                           (Some i, EvEnqueue j ec, (step s0 (EvEnqueue j ec)).2)] ∧
    q f' = (step s0 (EvEnqueue j ec)).1.
  Proof.
    cbv zeta. intros Hj0 Hal. destruct (quiet_started f Hj0) as (sq & Hk & Hb & Hq & Hs & Ha & _).
    destruct (started_up f Hj0) as [Hup Hbox]. clear Hj0. destruct f as [q0 kn bg qb up ab l tr].
    cbn [cs q known begun q_box aj_up aj_box trace] in *. subst.
    assert (∀ c : cstate M, (l ++ [c]) !! length l = Some c) as Hl.
    { intros c. by rewrite lookup_app_r, Nat.sub_diag by done. }
    assert (∀ c c' : cstate M, <[length l := c']> (l ++ [c]) = l ++ [c']) as Hi.
    { intros c c'. by rewrite insert_app_r_alt, Nat.sub_diag by done. }
    assert (∀ f fe fs, frun f (fe :: fs) = frun (fstep f fe) fs) as Hcons by done.
    set (c0 p := CState (CRun j ec) None p (length tr)).
    rewrite Hcons.
    assert (fstep (Front q0 false false [] true [] l tr) (FCall (CRun j ec)) =
      Front q0 false false [] true [] (l ++ [c0 AtLookup]) tr) as -> by done.
    rewrite Hcons.
    assert (fstep (Front q0 false false [] true [] (l ++ [c0 AtLookup]) tr) (FGo (length l)) =
      Front q0 false false [] true [] (l ++ [c0 AtInit]) tr) as ->.
    { cbn [Client.fstep cs]. rewrite Hl. cbn. unfold set_cs. cbn. by rewrite Hi. }
    rewrite Hcons.
    assert (fstep (Front q0 false false [] true [] (l ++ [c0 AtInit]) tr) (FGo (length l)) =
      Front q0 false false [] true [length l] (l ++ [c0 InitSent]) tr) as ->.
    { cbn [Client.fstep cs]. rewrite Hl. cbn. by rewrite Hi. }
    rewrite Hcons.
    assert (fstep (Front q0 false false [] true [length l] (l ++ [c0 InitSent]) tr) FAj =
      Front q0 true false [] true [] (l ++ [c0 AtSend]) tr) as ->.
    { cbn [Client.fstep cs aj_box]. rewrite Hl. cbn. by rewrite Hi. }
    rewrite Hcons.
    assert (fstep (Front q0 true false [] true [] (l ++ [c0 AtSend]) tr) (FGo (length l)) =
      Front q0 true false [length l] true [] (l ++ [c0 MsgSent]) tr) as ->.
    { cbn [Client.fstep cs]. rewrite Hl. cbn. by rewrite Hi. }
    rewrite Hcons.
    destruct (step q0 EvStart) as [s0 r0] eqn:E0. cbn [fst snd] in *.
    assert (fstep (Front q0 true false [length l] true [] (l ++ [c0 MsgSent]) tr) FBegin =
      Front s0 true true [length l] true [] (l ++ [c0 MsgSent]) (tr ++ [(None, EvStart, r0)])) as ->.
    { cbn [Client.fstep known begun andb negb]. unfold queue_step, settle. cbn [q trace]. rewrite E0, Hal. done. }
    rewrite Hcons.
    cbn [Client.fstep cs q_box begun q andb]. rewrite Hl, Hal. cbn [andb]. change (msg_of (c0 MsgSent)) with (EvEnqueue j ec).
    unfold queue_step, settle. cbn [q trace].
    destruct (step s0 (EvEnqueue j ec)) as [s1 r1]. rewrite <-app_assoc. by destruct (alive s1).
  Qed.

  Lemma first_just_run f j :
    just_started prof sched name h f →
    let i := length (cs f) in
    let s0 := (step (q f) EvStart).1 in
    let f' := frun f [FCall (CJust j); FAj; FGo i; FGo i; FAj; FGo i; FBegin; FHandle] in
    alive s0 = true →
    trace f' = trace f ++ [(None, EvStart, (step (q f) EvStart).2);
                           (Some i, EvEnqueue j new_re_run, (step s0 (EvEnqueue j new_re_run)).2)] ∧
    q f' = (step s0 (EvEnqueue j new_re_run)).1.
  Proof.
    cbv zeta. intros Hj0 Hal. destruct (quiet_started f Hj0) as (sq & Hk & Hb & Hq & Hs & Ha & _).
    destruct (started_up f Hj0) as [Hup Hbox]. clear Hj0. destruct f as [q0 kn bg qb up ab l tr].
    cbn [cs q known begun q_box aj_up aj_box trace] in *. subst.
    assert (∀ c : cstate M, (l ++ [c]) !! length l = Some c) as Hl.
    { intros c. by rewrite lookup_app_r, Nat.sub_diag by done. }
    assert (∀ c c' : cstate M, <[length l := c']> (l ++ [c]) = l ++ [c']) as Hi.
    { intros c c'. by rewrite insert_app_r_alt, Nat.sub_diag by done. }
    assert (∀ f fe fs, frun f (fe :: fs) = frun (fstep f fe) fs) as Hcons by done.
    set (c0 p := CState (CJust j) None p (length tr)).
    rewrite Hcons.
    assert (fstep (Front q0 false false [] true [] l tr) (FCall (CJust j)) =
      Front q0 false false [] true [length l] (l ++ [c0 AtSpawn]) tr) as -> by done.
    rewrite Hcons.
    assert (fstep (Front q0 false false [] true [length l] (l ++ [c0 AtSpawn]) tr) FAj =
      Front q0 false false [] true [] (l ++ [c0 AtLookup]) tr) as ->.
    { cbn [Client.fstep cs aj_box]. rewrite Hl. cbn. by rewrite Hi. }
    rewrite Hcons.
    assert (fstep (Front q0 false false [] true [] (l ++ [c0 AtLookup]) tr) (FGo (length l)) =
      Front q0 false false [] true [] (l ++ [c0 AtInit]) tr) as ->.
    { cbn [Client.fstep cs]. rewrite Hl. cbn. unfold set_cs. cbn. by rewrite Hi. }
    rewrite Hcons.
    assert (fstep (Front q0 false false [] true [] (l ++ [c0 AtInit]) tr) (FGo (length l)) =
      Front q0 false false [] true [length l] (l ++ [c0 InitSent]) tr) as ->.
    { cbn [Client.fstep cs]. rewrite Hl. cbn. by rewrite Hi. }
    rewrite Hcons.
    assert (fstep (Front q0 false false [] true [length l] (l ++ [c0 InitSent]) tr) FAj =
      Front q0 true false [] true [] (l ++ [c0 AtSend]) tr) as ->.
    { cbn [Client.fstep cs aj_box]. rewrite Hl. cbn. by rewrite Hi. }
    rewrite Hcons.
    assert (fstep (Front q0 true false [] true [] (l ++ [c0 AtSend]) tr) (FGo (length l)) =
      Front q0 true false [length l] true [] (l ++ [c0 MsgSent]) tr) as ->.
    { cbn [Client.fstep cs]. rewrite Hl. cbn. by rewrite Hi. }
    rewrite Hcons.
    destruct (step q0 EvStart) as [s0 r0] eqn:E0. cbn [fst snd] in *.
    assert (fstep (Front q0 true false [length l] true [] (l ++ [c0 MsgSent]) tr) FBegin =
      Front s0 true true [length l] true [] (l ++ [c0 MsgSent]) (tr ++ [(None, EvStart, r0)])) as ->.
    { cbn [Client.fstep known begun andb negb]. unfold queue_step, settle. cbn [q trace]. rewrite E0, Hal. done. }
    rewrite Hcons.
    cbn [Client.fstep cs q_box begun q andb]. rewrite Hl, Hal. cbn [andb]. change (msg_of (c0 MsgSent)) with (EvEnqueue j new_re_run).
    unfold queue_step, settle. cbn [q trace].
    destruct (step s0 (EvEnqueue j new_re_run)) as [s1 r1]. rewrite <-app_assoc. by destruct (alive s1).
  Qed.
  (** AJ dies in one way only. *)
  Lemma aj_dies f fe :
    aj_up f = true → aj_up (fstep f fe) = false →
    (fe = FAj ∧ known f = true ∧ ∃ i box c, aj_box f = i :: box ∧ cs f !! i = Some c ∧ c_at c = InitSent) ∨
    fe = FAjGone.
  Proof.
    intros Hup. assert (∀ o b e, aj_up (queue_step prof sched name h f o b e) = aj_up f) as Hq.
    { intros o b e. unfold queue_step, settle. destruct (step (q f) e) as [s r]. by destruct (alive s). }
    assert (∀ e, aj_up (process_dies prof sched name h f e) = true) as Hd.
    { intros e. unfold process_dies. by destruct (step (q f) e). }
    destruct fe as [c|i| | | | |e| |o k]; cbn [Client.fstep].
    - destruct c; cbn; rewrite ?Hup; cbn; congruence.
    - destruct (cs f !! i) as [c|]; [|congruence]. rewrite Hup.
      destruct (c_at c); cbn; try congruence.
      + destruct (known f), (inits c); cbn; congruence.
      + destruct (mailbox_open f); cbn; congruence.
    - destruct (aj_box f) as [|i box]; [congruence|]. destruct (cs f !! i) as [c|] eqn:Ei; [|cbn; congruence].
      destruct (c_at c) eqn:Ec; cbn; try congruence. destruct (known f) eqn:Ek; cbn; [|congruence].
      intros _. left. split; [done|]. split; [done|]. by exists i, box, c.
    - by right.
    - destruct (_ && _); [rewrite Hq|]; congruence.
    - destruct (q_box f) as [|i b]; [congruence|]. destruct (cs f !! i) as [c|]; [|congruence].
      destruct (_ && _); [rewrite Hq|]; congruence.
    - destruct (_ && _); [rewrite Hq|]; congruence.
    - rewrite Hd. done.
    - destruct o as [e|].
      + destruct (_ || _); [rewrite Hd|]; congruence.
      + destruct (q_box f) as [|i b]; [congruence|]. destruct (cs f !! i) as [c|]; [|congruence].
        destruct (begun f); [rewrite Hd|]; congruence.
  Qed.
End client.

Section update.
  Context {M : Type} `{SM : Serde M}.
  Context (prof : profile).
  Context (sched : string → option (time → option time)).
  Context (name : string).
  Context (clock : nat → time).
  Notation h := (mem_h clock).
  Notation step := (sys_step prof sched name h).
  Notation go := (sys_run prof sched name h).
  Notation frun := (front_run prof sched name h).

  Lemma update_atomic w (fs : list (fevent M)) i c id d cx k1 j k2 e x :
    let f := frun (front_init w) fs in
    let at_ n := go (sys_init w) (take n (map (λ x, x.1.2) (trace f))) in
    cs f !! i = Some c → c_call c = CUpdate id d cx →
    steps_of i (trace f) = [(k1, EvGet id, RJob (Some j)); (k2, e, x)] →
    (step (at_ k2) (EvGet id)).2 = RJob (Some j) →
    update_job prof sched name h (at_ k2) id d cx = (at_ (S k2), x).
  Proof.
    intros f at_ Hi Ec El Hg.
    destruct (calls_explained prof sched name h w fs i c Hi) as [Hfit _]. fold f in Hfit. rewrite Ec, El in Hfit.
    destruct Hfit as [[=]|[(k & y & [=] & _)|(id' & d' & cx' & k1' & j' & k2' & x' & E & E' & _)]].
    injection E as <- <- <-. injection E' as <- <- <- -> _.
    destruct (hist_after prof sched name h w fs) as [_ Hx]. fold f in Hx.
    assert (trace f !! k2 = Some (Some i, EvEnqueue (Job (default (ctx j) cx) d) (EnqueueConfig true true), x)) as Ht.
    { apply (steps_elem sched name). rewrite El. right. by left. }
    specialize (Hx _ _ _ _ Ht). unfold events_of in Hx. fold (at_ k2) in Hx.
    assert (at_ (S k2) = (step (at_ k2) (EvEnqueue (Job (default (ctx j) cx) d) (EnqueueConfig true true))).1) as Hs.
    { unfold at_. erewrite take_S_r.
      - unfold sys_run. by rewrite fold_left_app.
      - change (λ x0 : option nat * event M * response M, x0.1.2) with ((λ x0 : option nat * event M * response M, x0.1.2)).
        rewrite (list_lookup_fmap (λ x0 : option nat * event M * response M, x0.1.2)), Ht. done. }
    unfold update_job. rewrite (step_get prof sched name clock) in *. cbn in Hg. injection Hg as Hg. rewrite Hg.
    cbn. unfold ev_run. rewrite Hs, Hx. apply surjective_pairing.
  Qed.
End update.
