(** Invariants of single backend calls, valid after every prefix of a handler and with any backend
    fault; an acknowledged job is not lost before its first run. *)
From Verif Require Import Spec JsonFacts BackendFacts WorldFacts.

Section wp.
  Context (fl : bool) (clock : nat → time) (I : world → Prop).

  (** [I] holds before every effect and at the end, [Post] at the end; with [fl], whatever calls
      fail. *)
  Fixpoint wp {A} (p : prog A) (Post : A → world → Prop) (w : world) : Prop :=
    match p with
    | Ret a => I w ∧ Post a w
    | Panic | Diverge => I w
    | Eff e k =>
        I w ∧ wp (k (mem_h clock _ e w).2) Post (mem_h clock _ e w).1 ∧
        match fail_ans e with
        | None => True
        | Some bad => if fl then wp (k bad) Post w ∧ wp (k bad) Post (mem_h clock _ e w).1 else True
        end
    end.

  Lemma wp_mono {A} (p : prog A) (P Q : A → world → Prop) w :
    (∀ a w', P a w' → Q a w') → wp p P w → wp p Q w.
  Proof.
    intros HPQ. revert w. induction p as [a| | |X e k IH]; cbn; intros w; try done.
    - intros [H1 H2]. auto.
    - intros (H1&H2&H3). split; [done|]. split; [by apply IH|].
      destruct (fail_ans e); [|done]. destruct fl; [|done]. destruct H3 as [H3 H4]. split; by apply IH.
  Qed.
  Lemma wp_bind {A B} (p : prog A) (f : A → prog B) Q w :
    wp p (λ a w', wp (f a) Q w') w → wp (bind p f) Q w.
  Proof.
    revert w. induction p as [a| | |X e k IH]; cbn; intros w; try done.
    - by intros [_ ?].
    - intros (H1&H2&H3). split; [done|]. split; [by apply IH|].
      destruct (fail_ans e); [|done]. destruct fl; [|done]. destruct H3 as [H3 H4]. split; by apply IH.
  Qed.
  Lemma wp_pre {A} (p : prog A) Q w : wp p Q w → I w.
  Proof. destruct p; cbn; try done; by intros []. Qed.

  Lemma wp_run_mem {A} (p : prog A) Q w :
    wp p Q w →
    let r := run (mem_h clock) p w in I r.1 ∧ ∀ a, r.2 = Done a → Q a r.1.
  Proof.
    revert w. induction p as [a| | |X e k IH]; intros w.
    - cbn. intros [H1 H2]. split; [done|]. by intros ? [= <-].
    - done.
    - done.
    - cbn -[mem_h]. intros (_&Hw&_). destruct (mem_h clock X e w) as [w' x]. by apply IH.
  Qed.
  Lemma wp_run_n_mem {A} (p : prog A) Q n w : wp p Q w → I (run_n (mem_h clock) n p w).
  Proof.
    revert p w. induction n as [|n IHn]; intros p w Hw.
    - cbn. by eapply wp_pre.
    - destruct p as [a| | |X e k]; try (by apply Hw).
      cbn -[mem_h] in *. destruct Hw as (_&Hw&_). destruct (mem_h clock X e w) as [w' x]. by apply IHn.
  Qed.
End wp.

Section wp_faults.
  Context (clock : nat → time) (I : world → Prop).
  Notation wp := (wp true clock I).

  Lemma faulty_cases faults X (e : eff X) w :
    let r := faulty_h clock faults X e w in
    (fw r.1 = (mem_h clock X e (fw w)).1 ∧ r.2 = (mem_h clock X e (fw w)).2) ∨
    (fail_ans e = Some r.2 ∧ (fw r.1 = fw w ∨ fw r.1 = (mem_h clock X e (fw w)).1)).
  Proof.
    unfold faulty_h. destruct (mem_h clock X e (fw w)) as [w' x].
    destruct (fail_ans e) as [bad|]; [destruct (faults (ops w))|]; cbn; auto.
  Qed.
  Lemma wp_step {A} faults X (e : eff X) (k : X → prog A) Q w :
    wp (Eff e k) Q (fw w) →
    let r := faulty_h clock faults X e w in wp (k r.2) Q (fw r.1).
  Proof.
    cbn. intros (_&H2&H3). destruct (faulty_cases faults X e w) as [[-> ->]|[HE HH]]; [done|].
    rewrite HE in H3. destruct H3 as [H3 H4]. by destruct HH as [-> | ->].
  Qed.
  Lemma wp_run {A} (p : prog A) Q faults w :
    wp p Q (fw w) →
    let r := run (faulty_h clock faults) p w in
    I (fw r.1) ∧ ∀ a, r.2 = Done a → Q a (fw r.1).
  Proof.
    revert w. induction p as [a| | |X e k IH]; intros w.
    - cbn. intros [H1 H2]. split; [done|]. by intros ? [= <-].
    - done.
    - done.
    - intros Hw. apply (wp_step faults) in Hw. cbn in *.
      destruct (faulty_h clock faults X e w) as [w' x]. cbn in *. by apply IH.
  Qed.
  Lemma wp_run_n {A} (p : prog A) Q faults n w :
    wp p Q (fw w) → I (fw (run_n (faulty_h clock faults) n p w)).
  Proof.
    revert p w. induction n as [|n IHn]; intros p w Hw.
    - cbn. by eapply wp_pre.
    - destruct p as [a| | |X e k]; try (by apply Hw).
      apply (wp_step faults) in Hw. cbn in *.
      destruct (faulty_h clock faults X e w) as [w' x]. cbn in *. by apply IHn.
  Qed.
End wp_faults.

(** Never failing is the plain backend. *)
Lemma fault_free {A} (clock : nat → time) (p : prog A) w n :
  let r := run (faulty_h clock (λ _, FOk)) p (FWorld w n) in
  (fw r.1, r.2) = run (mem_h clock) p w.
Proof.
  revert w n. induction p as [a| | |X e k IH]; intros w n; try done.
  assert (∃ m, faulty_h clock (λ _, FOk) X e (FWorld w n) =
    (FWorld (mem_h clock X e w).1 m, (mem_h clock X e w).2)) as [m E].
  { unfold faulty_h. cbn [fw ops]. destruct (mem_h clock X e w) as [w' x].
    destruct (fail_ans e); cbn; eauto. }
  cbn. rewrite E. destruct (mem_h clock X e w) as [w' x]. cbn. apply IH.
Qed.

Lemma queued_snoc name w : qlist name w Queued = [] ∨ ∃ l x, qlist name w Queued = l ++ [x].
Proof. destruct (qlist name w Queued) as [|y l _] using rev_ind; eauto. Qed.
Lemma qlist_move_nil name w s s' :
  qlist name w Queued = [] → qlist name (w_move name w Queued s) s' = qlist name w s'.
Proof.
  intros E. rewrite !qlist_ql in *. cbn. rewrite (proj2 (mem_move_ql _ _ _ _ _ _)).
  rewrite E. cbn. unfold upd.
  destruct (String.eqb_spec (format_queue_name name s) (format_queue_name name Queued)) as [E2|E2].
  - rewrite E2. destruct (String.eqb_spec (format_queue_name name s') (format_queue_name name Queued)) as [->|]; [|done].
    by rewrite E.
  - destruct (String.eqb_spec (format_queue_name name s') (format_queue_name name s)) as [->|]; [done|].
    destruct (String.eqb_spec (format_queue_name name s') (format_queue_name name Queued)) as [->|]; [|done].
    by rewrite E.
Qed.

Section lost.
  Context {M : Type} `{SM : Serde M} {SO : SerdeOk M}.
  Context (prof : profile).
  Context (sched : string → option (time → option time)).
  Context (name : string).
  Context (clock : nat → time).
  Context (C A : string → Prop).
  Notation qlist := (qlist name).
  Notation stored := (@stored M SM).
  Notation qname := (format_queue_name name).

  Section world.
    Context (rs : list (job M)).
    Definition good (id : string) (w : world) : Prop :=
      C id ∨ id ∈ qlist w Queued ∨ id ∈ qlist w Running ∨ id ∈ map jid rs.
    Definition I (w : world) : Prop :=
      (∀ id, A id → good id w) ∧ (∀ id j, stored w id = Some j → jid j = id ∧ good id w).
    Definition le (w w' : world) : Prop := ∀ id, good id w → good id w'.
    Notation wp := (wp true clock I).

    Lemma le_refl w : le w w.
    Proof. by intros id. Qed.
    Local Hint Resolve le_refl : core.
    Lemma le_trans w1 w2 w3 : le w1 w2 → le w2 w3 → le w1 w3.
    Proof. intros H1 H2 id H. by apply H2, H1. Qed.
    Lemma I_le w w' : le w w' → (∀ id, stored w' id = stored w id) → I w → I w'.
    Proof.
      intros Hle Hs [H1 H2]. split.
      - intros id Ha. by apply Hle, H1.
      - intros id j. rewrite Hs. intros Hj. destruct (H2 id j Hj). split; [done|]. by apply Hle.
    Qed.
    Lemma good_rs id (w : world) : id ∈ map jid rs → good id w.
    Proof. intros H. by right; right; right. Qed.

    Lemma le_push w s x : le w (w_push name w s x).
    Proof.
      intros id [H|[H|[H|H]]]; [by left|right|right|by right; right; right].
      - left. rewrite qlist_push. destruct (bool_decide_reflect (Queued = s)) as [<-|]; [by right|done].
      - right; left. rewrite qlist_push. destruct (bool_decide_reflect (Running = s)) as [<-|]; [by right|done].
    Qed.
    Lemma I_push w s x : I w → I (w_push name w s x).
    Proof. apply I_le; [apply le_push|]. intros id. apply stored_push. Qed.
    Lemma good_push w x : good x (w_push name w Queued x).
    Proof. right; left. rewrite qlist_push. rewrite bool_decide_true by done. left. Qed.

    Lemma le_rem w s x : (s ≠ Queued ∧ s ≠ Running) ∨ x ∈ map jid rs ∨ C x → le w (w_rem name w s x).
    Proof.
      intros Hx id Hg. destruct (decide (id = x)) as [->|Hne].
      - destruct Hx as [[H1 H2]|[H|H]].
        + destruct Hg as [H|[H|[H|H]]]; [by left|right; left|right; right; left|by right; right; right].
          * rewrite qlist_rem, bool_decide_false by congruence. done.
          * rewrite qlist_rem, bool_decide_false by congruence. done.
        + by right; right; right.
        + by left.
      - destruct Hg as [H|[H|[H|H]]]; [by left|right; left|right; right; left|by right; right; right].
        + rewrite qlist_rem. destruct (bool_decide_reflect (Queued = s)) as [<-|]; [|done]. apply elem_of_list_filter. done.
        + rewrite qlist_rem. destruct (bool_decide_reflect (Running = s)) as [<-|]; [|done]. apply elem_of_list_filter. done.
    Qed.
    Lemma I_rem w s x : (s ≠ Queued ∧ s ≠ Running) ∨ x ∈ map jid rs ∨ C x → I w → I (w_rem name w s x).
    Proof. intros H. apply I_le; [by apply le_rem|]. intros id. apply stored_rem. Qed.

    Lemma le_move w s : s = Queued ∨ s = Running → le w (w_move name w Queued s).
    Proof.
      intros Hs id Hg. destruct (queued_snoc name w) as [E|(l&x&E)].
      - unfold good in *. by rewrite !(qlist_move_nil name w s _ E).
      - destruct Hg as [H|[H|[H|H]]]; [by left|right|right|by right; right; right].
        + destruct Hs as [->| ->].
          * left. rewrite (qlist_rotate name w l x _ E), bool_decide_true by done.
            rewrite E in H. apply elem_of_app in H as [H|H]; [by right|]. apply elem_of_list_singleton in H as ->. left.
          * rewrite E in H. apply elem_of_app in H as [H|H].
            -- left. by rewrite (qlist_pick name w l x _ E).
            -- right; left. apply elem_of_list_singleton in H as ->. rewrite (qlist_pick name w l x _ E). left.
        + right; left. destruct Hs as [->| ->].
          * rewrite (qlist_rotate name w l x _ E), bool_decide_false by done. done.
          * rewrite (qlist_pick name w l x _ E). by right.
    Qed.

    Lemma le_put w j : le w (w_put w j).
    Proof. intros id. unfold good. by rewrite !qlist_put. Qed.
    Lemma I_put w (j : job M) : good (jid j) w → I w → I (w_put w j).
    Proof.
      intros Hg [H1 H2]. split.
      - intros id Ha. by apply le_put, H1.
      - intros id j'. rewrite stored_put. destruct (bool_decide_reflect (id = jid j)) as [->|].
        + intros [= <-]. split; [by destruct j|]. by apply le_put.
        + intros Hj. destruct (H2 id j' Hj). split; [done|]. by apply le_put.
    Qed.
    Lemma le_tick w : le w (w_tick w).
    Proof. by intros id. Qed.
    Lemma le_send w m : le w (w_send w m).
    Proof. by intros id. Qed.

    (** The calls. *)
    Lemma wp_ret {B} (b : B) (Q : B → world → Prop) w : I w → Q b w → wp (Ret b) Q w.
    Proof. done. Qed.
    Lemma wp_now (Q : time → world → Prop) w :
      I w → (∀ w' t, I w' → le w w' → Q t w') → wp (do Now) Q w.
    Proof.
      intros Hi H. cbn. assert (I (w_tick w)) by (apply (I_le w); [apply le_tick|done|done]).
      split; [done|]. split; [|done]. split; [done|]. apply H; [done|]. by intros id.
    Qed.
    Lemma wp_send m (Q : unit → world → Prop) w :
      I w → (∀ w', I w' → le w w' → Q tt w') → wp (do (Send m)) Q w.
    Proof.
      intros Hi H. cbn. assert (I (w_send w m)) by (apply (I_le w); [apply le_send|done|done]).
      split; [done|]. split; [|done]. split; [done|]. apply H; [done|]. by intros id.
    Qed.
    Lemma wp_push s x (Q : result unit → world → Prop) w :
      I w →
      (∀ w' r, I w' → le w w' → (r = Ok tt → s = Queued → good x w') → Q r w') →
      wp (do (QPush (qname s) x)) Q w.
    Proof.
      intros Hi H. cbn. pose proof (I_push w s x Hi) as Hi2. pose proof (le_push w s x) as Hle.
      split; [done|]. split; [|split]; (split; [done|]).
      - apply H; [done..|]. intros _ ->. apply good_push.
      - apply H; done.
      - apply H; done.
    Qed.
    Lemma wp_rem s x (Q : result unit → world → Prop) w :
      I w → (s ≠ Queued ∧ s ≠ Running) ∨ x ∈ map jid rs ∨ C x →
      (∀ w' r, I w' → le w w' → Q r w') →
      wp (do (QRemove (qname s) x)) Q w.
    Proof.
      intros Hi Hx H. cbn. pose proof (I_rem w s x Hx Hi) as Hi2. pose proof (le_rem w s x Hx) as Hle.
      split; [done|]. split; [|split]; (split; [done|]); apply H; done.
    Qed.
    Lemma wp_move s (Q : result (list string) → world → Prop) w :
      I w → s = Queued ∨ s = Running →
      (∀ w' r, I w' → le w w' → Q r w') →
      wp (do (QMove (qname Queued) (qname s) 1 Back Front)) Q w.
    Proof.
      intros Hi Hx H.
      assert ((mem_h clock _ (QMove (qname Queued) (qname s) 1 Back Front) w).1 = w_move name w Queued s) as E.
      { cbn. unfold w_move. by destruct (mem_move _ _ _ _ _ _). }
      assert (I (w_move name w Queued s)) as Hi2.
      { apply (I_le w); [by apply le_move| |done]. intros id. apply stored_move. }
      assert (le w (w_move name w Queued s)) by by apply le_move.
      cbn -[mem_h]. rewrite E. cbn [fail_ans]. split; [done|]. split; [|split]; (split; [done|]); apply H; done.
    Qed.
    Lemma wp_read {X : Set} (e : eff X) (Q : X → world → Prop) w :
      (mem_h clock _ e w).1 = w → I w → (∀ r, Q r w) → wp (do e) Q w.
    Proof.
      intros E Hi H. cbn -[mem_h]. rewrite E. split; [done|]. split; [done|].
      destruct (fail_ans e); done.
    Qed.
    Lemma wp_get id (Q : _ → world → Prop) w :
      I w → (∀ o, (o = None ∨ o = stored w id) → Q (Ok o) w) →
      wp (get_from_storage (M:=M) id) Q w.
    Proof.
      intros Hi H. cbn. split; [done|]. split; [|split]; (split; [done|]); apply H; try by left.
      right. done.
    Qed.
    Lemma wp_upsert (j : job M) (Q : result unit → world → Prop) w :
      I w → good (jid j) w →
      (∀ w' r, I w' → le w w' → Q r w') →
      wp (upsert_to_storage (jid j) j) Q w.
    Proof.
      intros Hi Hx H. cbn. pose proof (I_put w j Hx Hi) as Hi2. pose proof (le_put w j) as Hle.
      split; [done|]. split; [|split]; (split; [done|]); apply H; done.
    Qed.
    Lemma wp_save (j : job M) (Q : _ → world → Prop) w :
      I w → good (jid j) w →
      (∀ w' r, I w' → le w w' → (∀ j', r = Ok j' → j' = j) → Q r w') →
      wp (save_and_notify j) Q w.
    Proof.
      intros Hi Hx H. unfold save_and_notify. apply wp_bind, wp_upsert; [done..|].
      intros w' [[]|err] Hi' Hle.
      - apply wp_bind, wp_send; [done|]. intros w'' Hi'' Hle2. apply wp_ret; [done|].
        apply H; [done| |by intros ? [= ->]]. by eapply le_trans.
      - apply wp_ret; [done|]. by apply H.
    Qed.
    (** The five status changes. *)
    Lemma wp_change (f : Z → job M) (Q : _ → world → Prop) id w :
      (∀ t, jid (f t) = id) → I w → good id w →
      (∀ w' r, I w' → le w w' → (∀ j', r = Ok j' → jid j' = id) → Q r w') →
      wp (let! t := get_now_as_ms in save_and_notify (f t)) Q w.
    Proof.
      intros Hf Hi Hx H. apply wp_bind. unfold get_now_as_ms. apply wp_bind, wp_now; [done|].
      intros w1 t Hi1 Hl1. apply wp_ret; [done|]. apply wp_save; [done|rewrite Hf; by apply Hl1|].
      intros w2 r Hi2 Hl2 Hr. apply H; [done|by eapply le_trans|]. intros j' Hj. by rewrite (Hr j' Hj).
    Qed.

    Lemma wp_enqueue (j : job M) (Q : _ → world → Prop) w :
      I w → (∀ w' r, I w' → le w w' → (r = Ok tt → good (jid j) w') → Q r w') →
      wp (enqueue name j) Q w.
    Proof.
      intros Hi H. unfold enqueue. apply wp_bind, wp_push; [done|].
      intros w1 [[]|err] Hi1 Hl1 Hg1; [|by apply wp_ret; [|apply H]].
      apply wp_bind. apply (wp_change _ _ (jid j)); [done|done|by apply Hg1|].
      intros w2 [j'|err] Hi2 Hl2 Hj; (apply wp_ret; [done|]); apply H; try done.
      - by eapply le_trans.
      - intros _. by apply Hl2, Hg1.
      - by eapply le_trans.
    Qed.
    Lemma wp_run_config (j : job M) c (Q : _ → world → Prop) w :
      I w → (∀ w' r, I w' → le w w' → (r = Ok tt → good (jid j) w') → Q r w') →
      wp (run_with_config name j c) Q w.
    Proof.
      intros Hi H. unfold run_with_config. apply wp_bind, wp_get; [done|].
      intros [ex|] Ho; [|by apply wp_enqueue].
      assert (good (jid j) w) as Hg.
      { destruct Ho as [?|Ho]; [done|]. symmetry in Ho. by apply Hi in Ho as []. }
      apply wp_bind.
      assert (∀ w1 (r : result unit), I w1 → le w w1 → wp match r with
        | Ok _ => if re_run c && is_done ex then let? _ := enqueue name j in Ret (Ok tt) else Ret (Ok tt)
        | Err e => Ret (Err e) end Q w1) as HH.
      { intros w1 [[]|err] Hi1 Hl1; [|by apply wp_ret; [|apply H]].
        destruct (re_run c && is_done ex).
        - apply wp_bind, wp_enqueue; [done|]. intros w2 [[]|err] Hi2 Hl2 Hg2; (apply wp_ret; [done|]); apply H; try done.
          + by eapply le_trans.
          + by eapply le_trans.
        - apply wp_ret; [done|]. apply H; [done..|]. intros _. by apply Hl1. }
      destruct (override_data c && negb (is_running ex)).
      - apply wp_upsert; [done..|]. intros w1 r Hi1 Hl1. by apply (HH w1 r).
      - apply wp_ret; [done|]. apply (HH w (Ok tt)); [done|apply le_refl].
    Qed.
    Lemma wp_re_enqueue (j : job M) (Q : _ → world → Prop) w :
      I w → good (jid j) w → (jstatus (ctx j) ≠ Queued ∧ jstatus (ctx j) ≠ Running) ∨ jid j ∈ map jid rs →
      (∀ w' r, I w' → le w w' → Q r w') →
      wp (re_enqueue name j) Q w.
    Proof.
      intros Hi Hg Hs H. unfold re_enqueue. apply wp_bind, wp_rem; [done|naive_solver|].
      intros w1 [[]|err] Hi1 Hl1; [|by apply wp_ret; [|apply H]].
      apply wp_bind. apply (wp_change _ _ (jid j)); [done|done|by apply Hl1|].
      intros w2 [j'|err] Hi2 Hl2 Hj.
      - apply wp_bind, wp_push; [done|]. intros w3 r Hi3 Hl3 _. apply wp_ret; [done|]. apply H; [done|].
        eapply le_trans; [done|]. by eapply le_trans.
      - apply wp_ret; [done|]. apply H; [done|]. by eapply le_trans.
    Qed.
    Lemma wp_remove_processing x (Q : _ → world → Prop) w :
      I w → x ∈ map jid rs → (∀ w', I w' → le w w' → Q tt w') → wp (remove_processing_job name x) Q w.
    Proof.
      intros Hi Hx H. unfold remove_processing_job. apply wp_bind, wp_rem; [done|auto|].
      intros w1 r Hi1 Hl1. apply wp_ret; [done|]. by apply H.
    Qed.
    Lemma wp_finished (j : job M) (Q : _ → world → Prop) w :
      I w → jid j ∈ map jid rs → (∀ w' r, I w' → le w w' → Q r w') → wp (mark_job_is_finished name j) Q w.
    Proof.
      intros Hi Hx H. unfold mark_job_is_finished. apply wp_bind, wp_remove_processing; [done..|].
      intros w1 Hi1 Hl1. apply wp_bind. apply (wp_change _ _ (jid j)); [done|done|by apply good_rs|].
      intros w2 [j'|err] Hi2 Hl2 Hj.
      - apply wp_bind, wp_push; [done|]. intros w3 r Hi3 Hl3 _. apply wp_ret; [done|]. apply H; [done|].
        eapply le_trans; [done|]. by eapply le_trans.
      - apply wp_ret; [done|]. apply H; [done|]. by eapply le_trans.
    Qed.
    Lemma wp_failed (j : job M) (Q : _ → world → Prop) w :
      I w → jid j ∈ map jid rs → (∀ w' r, I w' → le w w' → Q r w') → wp (mark_job_is_failed name j) Q w.
    Proof.
      intros Hi Hx H. unfold mark_job_is_failed. apply wp_bind.
      apply (wp_change _ _ (jid j)); [done|done|by apply good_rs|].
      intros w1 [j'|err] Hi1 Hl1 Hj; [|by apply wp_ret; [|apply H]].
      unfold push_failed_job. apply wp_bind, wp_bind, wp_remove_processing; [done|by rewrite (Hj j')|].
      intros w2 Hi2 Hl2. apply wp_bind, wp_push; [done|]. intros w3 r Hi3 Hl3 _.
      apply wp_ret; [done|]. apply wp_ret; [done|]. apply H; [done|].
      eapply le_trans; [done|]. by eapply le_trans.
    Qed.
    Lemma wp_next_tick (j : job M) (Q : _ → world → Prop) w :
      I w → (∀ w' o, I w' → le w w' → (∀ j', o = Some j' → jid j' = jid j) → Q o w') → wp (next_tick prof sched j) Q w.
    Proof.
      intros Hi H. unfold next_tick. apply wp_bind, wp_now; [done|]. intros w1 now Hi1 Hl1.
      destruct (jtype (ctx j)) as [| |ex nx n cc]; try (by apply wp_ret; [|apply H]).
      destruct (sched ex) as [f|]; [|by apply wp_ret; [|apply H]].
      apply wp_bind, wp_now; [done|]. intros w2 now2 Hi2 Hl2.
      assert (le w w2) as Hl by by eapply le_trans.
      assert (∀ j', jid j' = jid j → wp
       (if match max_repeat cc with Some m => m <? n | None => false end then Ret None
        else if match end_at cc with Some e => e <? now | None => false end then Ret None
        else Ret (Some j')) Q w2) as HH.
      { intros j' Hj. destruct (match max_repeat cc with Some m => m <? n | None => false end);
          [by apply wp_ret; [|apply H]|].
        destruct (match end_at cc with Some e => e <? now | None => false end);
          [by apply wp_ret; [|apply H]|].
        apply wp_ret; [done|]. apply H; [done..|]. by intros ? [= <-]. }
      destruct (f now2); [|by apply HH]. destruct (i32_norm prof (n + 1)); [|done]. by apply HH.
    Qed.
    Lemma wp_tail (orig j : job M) u (Q : _ → world → Prop) w :
      I w → jid j ∈ map jid rs → jid orig = jid j → (∀ w', I w' → le w w' → Q tt w') →
      wp (task_tail prof sched name orig j u) Q w.
    Proof.
      intros Hi Hx Ho H. unfold task_tail. apply wp_bind.
      assert (∀ w1 (r : result unit), I w1 → le w w1 → wp match r with
        | Ok _ => Ret tt | Err _ => let! _ := mark_job_is_failed name orig in Ret tt end Q w1) as HH.
      { intros w1 [[]|err] Hi1 Hl1; [by apply wp_ret; [|apply H]|].
        apply wp_bind, wp_failed; [done|by rewrite Ho|]. intros w2 r Hi2 Hl2. apply wp_ret; [done|].
        apply H; [done|]. by eapply le_trans. }
      assert (∀ j' b w1, I w1 → le w w1 → jid j' = jid j →
        wp (execute_finish prof sched name j' b) (λ r w', wp match r with
        | Ok _ => Ret tt | Err _ => let! _ := mark_job_is_failed name orig in Ret tt end Q w') w1) as Hfin.
      { intros j' b w1 Hi1 Hl1 Hj. unfold execute_finish. apply wp_bind, wp_next_tick; [done|].
        intros w2 [nj|] Hi2 Hl2 Hn.
        - assert (jid nj ∈ map jid rs) by (rewrite (Hn nj) by done; by rewrite Hj).
          apply wp_re_enqueue; [done|by apply good_rs|by right|].
          intros w3 r Hi3 Hl3. apply (HH w3 r); [done|]. eapply le_trans; [done|]. by eapply le_trans.
        - destruct b; [apply wp_failed|apply wp_finished]; try done; try (by rewrite Hj);
          intros w3 r Hi3 Hl3; (apply (HH w3 r); [done|]); (eapply le_trans; [done|]); by eapply le_trans. }
      unfold execute_tail. destruct (jretry (ctx j)) as [rt|]; [|by apply Hfin; [|apply le_refl|]].
      apply wp_bind. unfold call_retry_at. destruct (ur_retry u) as [fl|r' o].
      - destruct (fl && should_retry rt).
        + apply wp_bind, wp_now; [done|]. intros w1 now Hi1 Hl1.
          destruct (retry_retry_at prof rt now) as [[r' t]|]; [|done]. apply wp_ret; [done|].
          apply wp_re_enqueue; [done|by apply good_rs|by right|]. intros w2 r Hi2 Hl2. apply (HH w2 r); [done|].
          by eapply le_trans.
        + apply wp_ret; [done|]. apply Hfin; [done|apply le_refl|done].
      - apply wp_ret; [done|]. destruct o as [t|].
        + apply wp_re_enqueue; [done|by apply good_rs|by right|]. intros w2 r Hi2 Hl2. by apply (HH w2 r).
        + apply Hfin; [done|apply le_refl|done].
    Qed.
    Lemma wp_cancel id (Q : _ → world → Prop) w :
      I w → C id → (∀ w' r, I w' → le w w' → Q r w') → wp (cancel_job (M:=M) name id) Q w.
    Proof.
      intros Hi Hc H. unfold cancel_job. apply wp_bind, wp_get; [done|].
      intros [j|] Ho; [|apply wp_ret; [done|]; apply H; [done|apply le_refl]].
      destruct (is_queued j); [|apply wp_ret; [done|]; apply H; [done|apply le_refl]].
      assert (good (jid j) w) as Hg.
      { destruct Ho as [?|Ho]; [done|]. symmetry in Ho. destruct Hi as [_ Hi]. destruct (Hi id j Ho) as [-> ?]. done. }
      apply wp_bind. apply (wp_change _ _ (jid j)); [done..|].
      intros w1 [j'|err] Hi1 Hl1 Hj; [|by apply wp_ret; [|apply H]].
      apply wp_bind, wp_rem; [done|by right; right|]. intros w2 [[]|err] Hi2 Hl2;
        (apply wp_ret; [done|]); (apply H; [done|]); by eapply le_trans.
    Qed.
    Lemma wp_retry id (Q : _ → world → Prop) w :
      I w → (∀ w' r, I w' → le w w' → Q r w') → wp (retry_job (M:=M) name id) Q w.
    Proof.
      intros Hi H. unfold retry_job. apply wp_bind, wp_get; [done|].
      intros [j|] Ho; [|apply wp_ret; [done|]; apply H; [done|apply le_refl]].
      destruct (is_done j) eqn:Ed; [|apply wp_ret; [done|]; apply H; [done|apply le_refl]].
      assert (good (jid j) w) as Hg.
      { destruct Ho as [?|Ho]; [done|]. symmetry in Ho. destruct Hi as [_ Hi]. destruct (Hi id j Ho) as [-> ?]. done. }
      apply wp_bind. apply wp_re_enqueue; [done..| |].
      - left. unfold is_done in Ed. by destruct (jstatus (ctx j)).
      - intros w1 [[]|err] Hi1 Hl1; (apply wp_ret; [done|]); by apply H.
    Qed.
    Lemma wp_pick_batch total ids (ready : list (job M)) (Q : _ → world → Prop) w :
      I w → (∀ w' r, I w' → le w w' → Q r w') → wp (pick_batch name total ids ready) Q w.
    Proof.
      revert ready w. induction ids as [|id ids IH]; intros ready w Hi H; cbn [pick_batch].
      { apply wp_ret; [done|]. apply H; [done|apply le_refl]. }
      assert (∀ w1, I w1 → le w w1 → wp (let? _ := do (QMove (qname Queued) (qname Queued) 1 Back Front) in
          pick_batch name total ids ready) Q w1) as Hrot.
      { intros w1 Hi1 Hl1. apply wp_bind, wp_move; [done|by left|].
        intros w2 [l|err] Hi2 Hl2.
        - apply IH; [done|]. intros w3 r Hi3 Hl3. apply H; [done|]. eapply le_trans; [done|]. by eapply le_trans.
        - apply wp_ret; [done|]. apply H; [done|]. by eapply le_trans. }
      apply wp_bind, wp_get; [done|]. intros [j|] Ho; [|apply Hrot; [done|apply le_refl]].
      assert (good (jid j) w) as Hg.
      { destruct Ho as [?|Ho]; [done|]. symmetry in Ho. destruct Hi as [_ Hi]. destruct (Hi id j Ho) as [-> ?]. done. }
      apply wp_bind, wp_now; [done|]. intros w1 now Hi1 Hl1.
      destruct (is_ready j now && _ && _); [|by apply Hrot].
      apply wp_bind. apply (wp_change _ _ (jid j)); [done|done|by apply Hl1|].
      assert (∀ w2 w3, le w1 w2 → le w2 w3 → le w w3) as Htr.
      { intros w2 w3 H1 H2. eapply le_trans; [done|]. by eapply le_trans. }
      intros w2 [j'|err] Hi2 Hl2 Hj; [|apply wp_ret; [done|]; apply H; [done|]; by eapply le_trans].
      apply wp_bind, wp_move; [done|by right|].
      intros w3 [l|err] Hi3 Hl3; [|apply wp_ret; [done|]; apply H; [done|]; by eapply Htr].
      apply IH; [done|]. intros w4 r Hi4 Hl4. apply H; [done|]. eapply le_trans; [|done]. by eapply Htr.
    Qed.
    Lemma wp_pick_loop fuel total (ready : list (job M)) cursor (Q : _ → world → Prop) w :
      I w → (∀ w' r, I w' → le w w' → Q r w') → wp (pick_loop prof name fuel total ready cursor) Q w.
    Proof.
      revert ready cursor w. induction fuel as [|fuel IH]; intros ready cursor w Hi H; cbn [pick_loop]; [done|].
      apply wp_bind, wp_read; [done|done|].
      intros [ids|err]; [|apply wp_ret; [done|]; apply H; [done|apply le_refl]].
      destruct (i32_norm prof _); [|done].
      apply wp_bind, wp_pick_batch; [done|]. intros w1 [rd|err] Hi1 Hl1; [|by apply wp_ret; [|apply H]].
      destruct (total <=? length rd)%nat; [by apply wp_ret; [|apply H]|].
      destruct (z <=? 0); [by apply wp_ret; [|apply H]|].
      apply IH; [done|]. intros w2 r Hi2 Hl2. apply H; [done|]. by eapply le_trans.
    Qed.
    Lemma wp_process_jobs c ts (Q : list (task M) → world → Prop) w :
      I w →
      (∀ w' js, I w' → le w w' → Q (ts ++ map (λ j, Task j j Spawned) js) w') →
      wp (process_jobs prof name c ts) Q w.
    Proof.
      intros Hi H. unfold process_jobs. apply wp_bind.
      assert (∀ w1 (r : result (list (job M))), I w1 → le w w1 →
         wp (Ret match r with Ok js => ts ++ map (λ j, Task j j Spawned) js | Err _ => ts end) Q w1) as HH.
      { intros w1 [js|err] Hi1 Hl1; (apply wp_ret; [done|]).
        - by apply H.
        - pose proof (H w1 [] Hi1 Hl1) as H1. cbn in H1. by rewrite app_nil_r in H1. }
      unfold pick_jobs_to_process. apply wp_bind, wp_read; [done|done|]. intros r.
      destruct (max_processing_jobs c <=? _)%nat.
      { apply wp_ret; [done|]. apply (HH w (Ok [])); [done|apply le_refl]. }
      unfold try_pick_specific_ready_jobs. apply wp_bind, wp_read; [done|done|].
      intros [len|err]; [|apply wp_ret; [done|]; apply (HH w (Err err)); [done|apply le_refl]].
      apply wp_pick_loop; [done|]. intros w1 r1 Hi1 Hl1. by apply (HH w1 r1).
    Qed.
  End world.

  (** ** The system *)
  Notation sysf := (sys fworld M).
  Notation step faults := (sys_step prof sched name (faulty_h clock faults)).

  Definition tasks_ok (rs : list (job M)) (ts : list (task M)) : Prop :=
    ∀ t, t ∈ ts → jid (t_orig t) = jid (t_job t) ∧
      (t_phase t = InUser ∨ t_phase t = AfterHook → jid (t_job t) ∈ map jid rs).
  Definition J (s : sysf) : Prop := I (runs s) (fw (sw s)) ∧ tasks_ok (runs s) (tasks s).

  Lemma good_more rs js id w : good rs id w → good (rs ++ js) id w.
  Proof. intros [H|[H|[H|H]]]; unfold good; [tauto..|]. rewrite map_app. right; right; right. apply elem_of_app. by left. Qed.
  Lemma I_more rs js w : I rs w → I (rs ++ js) w.
  Proof.
    intros [H1 H2]. split; [intros id Ha; by apply good_more, H1|].
    intros id j Hj. destruct (H2 id j Hj). split; [done|]. by apply good_more.
  Qed.

  Lemma ev_prog_wp c ts rs e w :
    (∀ id, cancels id e → C id) → I rs w → tasks_ok rs ts →
    wp true clock (I rs) (ev_prog prof sched name c ts e)
      (λ r w', tasks_ok (rs ++ r.1.2) r.1.1.2 ∧
         match e with EvEnqueue j _ => r.2 = RUnit (Ok tt) → good rs (jid j) w' | _ => True end) w.
  Proof.
    intros Hc Hi Ht.
    assert (tasks_ok (rs ++ []) ts) as Ht0 by by rewrite app_nil_r.
    assert (∀ ts' js, tasks_ok (rs ++ []) ts' → tasks_ok (rs ++ []) (ts' ++ map (λ j, Task j j Spawned) js)) as Hsp.
    { intros ts' js H t [Hin|Hin]%elem_of_app; [by apply H|].
      apply elem_of_list_fmap in Hin as (j&->&_). cbn. split; [done|]. by intros [|]. }
    assert (tasks_ok (rs ++ []) []) as Hnil by (intros t H; by apply elem_of_nil in H).
    destruct e as [j ec|id|id|id|c'| |i u| | |e n|]; cbn [ev_prog].
    - apply wp_bind, wp_run_config; [done|]. intros w1 r Hi1 Hl1 Hg. apply wp_ret; [done|]. split; [done|].
      cbn. by intros [= ->]; auto.
    - apply wp_bind, wp_cancel; [done|by apply Hc|]. intros w1 r Hi1 Hl1. by apply wp_ret.
    - apply wp_bind. unfold get_job. apply wp_get; [done|]. intros o _. by apply wp_ret.
    - apply wp_bind, wp_retry; [done|]. intros w1 r Hi1 Hl1. by apply wp_ret.
    - by apply wp_ret.
    - apply wp_bind, wp_process_jobs; [done|]. intros w1 js Hi1 Hl1. apply wp_ret; [done|]. split; [|done].
      by apply Hsp.
    - destruct (ts !! i) as [t|] eqn:Et; [|by apply wp_ret].
      assert (t ∈ ts) as Hin by by eapply elem_of_list_lookup_2.
      destruct (Ht t Hin) as [Ho Hp].
      assert (∀ js t', jid (t_orig t') = jid (t_job t') →
        (t_phase t' = InUser ∨ t_phase t' = AfterHook → jid (t_job t') ∈ map jid (rs ++ js)) →
        tasks_ok (rs ++ js) (<[i := t']> ts)) as Hins.
      { intros js t' H1 H2 t2 Hin2. apply elem_of_list_lookup in Hin2 as [k Hk].
        apply list_lookup_insert_Some in Hk as [(->&->&_)|[_ Hk]]; [done|].
        apply elem_of_list_lookup_2 in Hk. destruct (Ht t2 Hk) as [H3 H4]. split; [done|]. intros H5.
        rewrite map_app. apply elem_of_app. left. by apply H4. }
      assert (tasks_ok (rs ++ []) (delete i ts)) as Hdel.
      { intros t2 Hin2. apply Ht0. rewrite delete_take_drop in Hin2.
        rewrite <- (take_drop i ts). apply elem_of_app in Hin2 as [H|H]; apply elem_of_app; [by left|right].
        rewrite (drop_S _ _ _ Et). by right. }
      apply wp_bind. unfold task_step. destruct (t_phase t) eqn:Eph.
      + destruct (is_cancelled (t_job t)).
        * apply wp_bind. unfold mark_job_is_canceled. apply wp_bind, wp_push; [done|].
          intros w1 r Hi1 Hl1 _. apply wp_ret; [done|]. apply wp_ret; [done|]. by apply wp_ret.
        * apply wp_bind, wp_send; [done|]. intros w1 Hi1 Hl1. apply wp_ret; [done|]. apply wp_ret; [done|].
          split; [|done]. apply Hins; [done|]. by intros [|].
      + apply wp_ret; [done|]. apply wp_ret; [done|]. split; [|done]. apply Hins; [done|].
        intros _. cbn. rewrite map_app. apply elem_of_app. right. cbn. left.
      + apply wp_bind, wp_send; [done|]. intros w1 Hi1 Hl1. apply wp_ret; [done|]. apply wp_ret; [done|].
        split; [|done]. apply Hins; [done|]. intros _. rewrite app_nil_r. apply Hp. by left.
      + apply wp_bind, wp_tail; [done|apply Hp; by right|done|]. intros w1 Hi1 Hl1. apply wp_ret; [done|].
        by apply wp_ret.
    - by apply wp_ret.
    - by apply wp_ret.
    - by apply wp_ret.
    - apply wp_bind, wp_process_jobs; [done|]. intros w1 js Hi1 Hl1. apply wp_ret; [done|]. split; [|done].
      by apply (Hsp []).
  Qed.

  Lemma tasks_ok_nil rs : tasks_ok rs [].
  Proof. intros t H. by apply elem_of_nil in H. Qed.
  Lemma J_commit faults s e :
    (∀ id, cancels id e → C id) → J s →
    J (commit prof sched name (faulty_h clock faults) s e).1 ∧
    match e with
    | EvEnqueue j _ =>
        (commit prof sched name (faulty_h clock faults) s e).2 = RUnit (Ok tt) →
        good (runs (commit prof sched name (faulty_h clock faults) s e).1) (jid j)
          (fw (sw (commit prof sched name (faulty_h clock faults) s e).1))
    | _ => True end.
  Proof.
    intros Hc [Hi Ht]. pose proof (ev_prog_wp (cfg s) (tasks s) (runs s) e (fw (sw s)) Hc Hi Ht) as Hw.
    apply (wp_run _ _ _ _ faults (sw s)) in Hw. unfold commit. cbn zeta in Hw.
    destruct (run (faulty_h clock faults) (ev_prog prof sched name (cfg s) (tasks s) e) (sw s)) as [w' o].
    cbn [fst snd] in Hw. destruct Hw as [H1 H2]. destruct o as [[[[c ts] js] r]| |].
    - destruct (H2 _ eq_refl) as [H3 H4]. cbn in *. split.
      + split; cbn; [by apply I_more|done].
      + destruct e; try done. intros Hr. by apply good_more, H4.
    - cbn. split; [split; [done|apply tasks_ok_nil]|]. by destruct e.
    - cbn. split; [split; [done|apply tasks_ok_nil]|]. by destruct e.
  Qed.
  Lemma J_step faults s e :
    (∀ id, cancels id e → C id) → J s → J (step faults s e).1.
  Proof.
    intros Hc HJ. destruct HJ as [Hi Ht].
    assert (∀ s' : sysf, sw s' = sw s → runs s' = runs s → tasks s' = [] → J s') as Hdead.
    { intros s' E1 E2 E3. split; [by rewrite E1, E2|]. rewrite E3. apply tasks_ok_nil. }
    assert (∀ e' n, (∀ id, cancels id e' → C id) →
      J (Sys (run_n (faulty_h clock faults) n (ev_prog prof sched name (cfg s) (tasks s) e') (sw s)) (cfg s) [] false (runs s))) as Hn.
    { intros e' n Hc'. split; [cbn|apply tasks_ok_nil].
      eapply wp_run_n. by apply (ev_prog_wp (cfg s) (tasks s) (runs s) e' (fw (sw s))). }
    unfold sys_step. destruct (alive s).
    - destruct e; try (by apply J_commit); try (by apply Hdead); try done.
      destruct e; try (by apply Hn); by apply Hdead.
    - destruct e; try done; try (by apply J_commit). destruct e; try done. by apply Hn.
  Qed.
  Lemma J_run faults s es :
    (∀ id e, e ∈ es → cancels id e → C id) → J s →
    J (sys_run prof sched name (faulty_h clock faults) s es).
  Proof.
    unfold sys_run. revert s. induction es as [|e es IH]; intros s Hc HJ; cbn; [done|].
    apply IH.
    - intros id e' He'. apply Hc. by right.
    - apply J_step; [|done]. intros id. apply Hc. left.
  Qed.
  Lemma J_enqueue faults s j ec :
    J s → (step faults s (EvEnqueue j ec)).2 = RUnit (Ok tt) →
    good (runs (step faults s (EvEnqueue j ec)).1) (jid j) (fw (sw (step faults s (EvEnqueue j ec)).1)).
  Proof.
    intros HJ. unfold sys_step. destruct (alive s); [|done].
    apply (J_commit faults s (EvEnqueue j ec)); [|done]. intros id Hid. done.
  Qed.
End lost.
