(** When the picking loop ends. *)
From Verif Require Import Spec SpecRace SpecMulti BackendFacts WorldFacts RedisFacts MultiFacts RaceFacts.

(** *** Conditions on all calls of a program, whatever the answers, and on its result *)
Section calls.
  Context (P : ∀ X : Set, eff X → Prop) (D : Prop).
  Fixpoint all_calls {A} (p : prog A) (Q : A → Prop) : Prop :=
    match p with
    | Ret a => Q a
    | Panic => True
    | Diverge => D
    | @Eff _ X e k => P X e ∧ ∀ x, all_calls (k x) Q
    end.
  Lemma all_calls_bind {A B} (p : prog A) (f : A → prog B) (R : A → Prop) (Q : B → Prop) :
    all_calls p R → (∀ a, R a → all_calls (f a) Q) → all_calls (bind p f) Q.
  Proof.
    intros Hp Hf. induction p as [a| | |X e k IH]; cbn in *; auto. destruct Hp. split; [done|]. auto.
  Qed.
End calls.
Lemma all_calls_mono (P P' : ∀ X : Set, eff X → Prop) (D D' : Prop) {A} (p : prog A) (Q Q' : A → Prop) :
  (∀ X e, P X e → P' X e) → (D → D') → (∀ a, Q a → Q' a) → all_calls P D p Q → all_calls P' D' p Q'.
Proof. intros HP HD HQ. induction p as [a| | |X e k IH]; cbn; auto. intros []. auto. Qed.
Notation T := (λ _, True).

Section loop.
  Context {M : Type} `{SM : Serde M}.
  Context (q : string).
  Notation waiting := (format_queue_name q Queued).
  Notation len w := (length (ql (st w) waiting)).

  (** The call takes nothing from the waiting list, and moves nothing to it. *)
  Definition keeps (X : Set) (e : eff X) : Prop :=
    match e with
    | QMove f t _ _ _ => f ≠ waiting ∧ t ≠ waiting
    | QRemove l _ => l ≠ waiting
    | _ => True
    end.
  Lemma put_end_length d (a b : list string) : length (put_end d a b) = (length a + length b)%nat.
  Proof. destruct d; cbn; rewrite ?app_length, ?rev_length; lia. Qed.
  Lemma from_end_length d (l : list string) : length (from_end d l) = length l.
  Proof. by rewrite from_end_perm. Qed.
  Lemma keeps_suffix clock X (e : eff X) w :
    keeps X e → ∃ pre, ql (st (mem_h clock X e w).1) waiting = pre ++ ql (st w) waiting.
  Proof.
    destruct e as [l x|l l' n d d'|l x|l n d|l|h key v|h key| |m]; cbn -[mem_push mem_move mem_remove mem_upsert mem_sget]; intros H; try (by exists []).
    - rewrite mem_push_ql. unfold upd. destruct (String.eqb_spec waiting l) as [<-|]; [by exists [x]|by exists []].
    - exists []. pose proof (mem_move_ql (st w) l l' n d d') as [_ Hm].
      destruct (mem_move (st w) l l' n d d') as [s r]. cbn [fst snd st set_st] in *. rewrite Hm. unfold upd. destruct H.
      by rewrite !(proj2 (String.eqb_neq waiting _)) by congruence.
    - exists []. rewrite mem_remove_ql. unfold upd. by destruct (String.eqb_spec waiting l) as [<-|].
    - exists []. cbn. unfold ql. by rewrite mem_upsert_queues.
  Qed.
  Lemma keeps_len clock X (e : eff X) w : keeps X e → (len w <= len (mem_h clock X e w).1)%nat.
  Proof. intros H. destruct (keeps_suffix clock X e w H) as [pre ->]. rewrite app_length. lia. Qed.
  (** A move of one id shortens a list by at most one; onto itself, it does not. *)
  Lemma move_len (s : store) (l : string) (d d' : direction) :
    (length (ql s waiting) <= S (length (ql (mem_move s waiting l 1 d d').1 waiting)))%nat ∧
    (l = waiting → length (ql (mem_move s waiting l 1 d d').1 waiting) = length (ql s waiting)).
  Proof.
    pose proof (mem_move_ql s waiting l 1 d d') as [_ Hm]. rewrite Hm. unfold upd.
    destruct (String.eqb_spec waiting l) as [<-|Hne].
    - rewrite put_end_length, String.eqb_refl, from_end_length, drop_length, take_length, from_end_length. split; lia.
    - rewrite String.eqb_refl, from_end_length, drop_length, from_end_length. split; [lia|congruence].
  Qed.

  (** *** The steps *)
  (** Jobs in hand are not waiting. *)
  Definition nw (j : job M) : Prop := jstatus (ctx j) ≠ Queued.
  Definition nwt (t : task M) : Prop := nw (t_orig t) ∧ nw (t_job t).
  Definition nws (res : step_result) : Prop := Forall nwt res.1.1.2.
  Section other.
    Context (prof : profile) (sched : string → option (time → option time)) (name : string).
    Notation ok := (all_calls keeps False).
    Lemma name_keeps s : s ≠ Queued → format_queue_name name s ≠ waiting.
    Proof. intros H E. by apply queue_key_inj in E as [_ E]. Qed.
    Ltac ok_tac :=
      repeat match goal with
      | |- ok (bind _ _) _ => apply all_calls_bind with (R := T); [|intros ? _]
      | |- ok (Ret _) _ => exact Logic.I
      | |- ok Panic _ => exact Logic.I
      | |- ok (do _) _ => split; [cbn; try (by apply name_keeps); try exact Logic.I|done]
      | |- ok (match ?x with _ => _ end) _ => destruct x
      | |- ok (if ?x then _ else _) _ => destruct x
      end.
    Lemma ok_save (j : job M) : ok (save_and_notify j) T.
    Proof. unfold save_and_notify, upsert_to_storage. ok_tac. Qed.
    Lemma ok_get id : ok (get_from_storage (M := M) id) T.
    Proof. unfold get_from_storage. ok_tac. Qed.
    Lemma ok_stamp (f : Z → job M) : ok (let! t := get_now_as_ms in save_and_notify (f t)) T.
    Proof. unfold get_now_as_ms, get_now. ok_tac. apply ok_save. Qed.
    Lemma ok_enqueue (j : job M) : ok (enqueue name j) T.
    Proof. unfold enqueue. ok_tac. apply ok_stamp. Qed.
    Lemma ok_re_enqueue (j : job M) : nw j → ok (re_enqueue name j) T.
    Proof. intros Hj. unfold re_enqueue. ok_tac. apply ok_stamp. Qed.
    Lemma ok_failed (j : job M) : ok (mark_job_is_failed name j) T.
    Proof. unfold mark_job_is_failed, push_failed_job, remove_processing_job. ok_tac. apply ok_stamp. Qed.
    Lemma ok_finished (j : job M) : ok (mark_job_is_finished name j) T.
    Proof. unfold mark_job_is_finished, remove_processing_job. ok_tac. apply ok_stamp. Qed.
    Lemma ok_next_tick (j : job M) : nw j → ok (next_tick prof sched j) (λ o, match o with Some j' => nw j' | None => True end).
    Proof.
      intros H. unfold next_tick, get_now. apply all_calls_bind with (R := T); [by split|]. intros now _.
      destruct (jtype (ctx j)) as [| |expr slot total cc]; try done.
      destruct (sched expr) as [aft|]; [|done]. apply all_calls_bind with (R := T); [by split|]. intros now2 _. cbv zeta.
      destruct (aft now2) as [up|]; [destruct (i32_norm prof (total + 1)) as [n'|]; [|done]|];
        (destruct (match max_repeat cc with Some m => m <? total | None => false end); [done|];
         by destruct (match end_at cc with Some e => e <? _ | None => false end)).
    Qed.
    Lemma ok_task t u :
      nwt t → ok (task_step prof sched name t u) (λ r, match r.1 with Some t' => nwt t' | None => True end).
    Proof.
      intros Ht. pose proof Ht as [Ho Hj]. unfold task_step.
      assert (∀ (j : job M) b, nw j → ok (execute_finish prof sched name j b) T) as Hfin.
      { intros j b H. unfold execute_finish. eapply all_calls_bind; [by apply ok_next_tick|].
        intros [nj|] Hn; [by apply ok_re_enqueue|]. destruct b; [apply ok_failed|apply ok_finished]. }
      destruct (t_phase t).
      + unfold mark_job_is_canceled, remove_processing_job, plugin_before. destruct (is_cancelled _); cbn -[format_queue_name].
        * by split.
        * by split.
      + by split.
      + unfold plugin_after. cbn. by split.
      + apply all_calls_bind with (R := T); [|done]. unfold task_tail. apply all_calls_bind with (R := T).
        * unfold execute_tail. destruct (jretry (ctx (t_job t))) as [r|]; [|by apply Hfin]. apply all_calls_bind with (R := T).
          -- unfold call_retry_at. destruct (ur_retry u); [|done]. destruct (_ && _); [|done]. unfold get_now. ok_tac.
          -- intros [r' [t'|]] _; [by apply ok_re_enqueue|by apply Hfin].
        * intros [u'|e] _; [done|]. apply all_calls_bind with (R := T); [apply ok_failed|done].
    Qed.
    Lemma ok_event c ts (e : event M) :
      Forall nwt ts → match e with EvTick | EvStart | EvCancel _ => False | _ => True end →
      ok (ev_prog prof sched name c ts e) nws.
    Proof.
      intros Ht He. destruct e as [j ec|x|x|x|c'| |n' u| | |e' n'|]; cbn [ev_prog]; try done.
      - apply all_calls_bind with (R := T); [|done].
        unfold run_with_config. ok_tac; first [apply ok_get|apply ok_enqueue|by split].
      - apply all_calls_bind with (R := T); [|done]. unfold retry_job. apply all_calls_bind with (R := T); [apply ok_get|].
        intros [[j|]|e] _; try done. destruct (is_done j) eqn:Ed; [|done].
        apply all_calls_bind with (R := T); [|by intros [] _]. apply ok_re_enqueue. unfold nw. intros E.
        unfold is_done in Ed. by rewrite E in Ed.
      - destruct (ts !! n') as [t|] eqn:Et; [|done].
        eapply all_calls_bind; [apply ok_task; by eapply Forall_lookup_1|]. intros [[t'|] js] H; cbn in *.
        + by apply Forall_insert.
        + by apply Forall_delete.
      - constructor.
      - constructor.
      - constructor.
    Qed.
    Lemma ok_cancel c ts id :
      Forall nwt ts → all_calls (λ _ _, True) False (ev_prog (M := M) prof sched name c ts (EvCancel id)) nws.
    Proof.
      intros Ht. cbn [ev_prog]. apply all_calls_bind with (R := T); [|done]. unfold cancel_job. apply all_calls_bind with (R := T).
      { eapply all_calls_mono; [| | |apply ok_get]; done. }
      intros [[j|]|e] _; try done. destruct (is_queued j); [|done]. apply all_calls_bind with (R := T).
      { eapply all_calls_mono; [| | |apply (ok_stamp (can j))]; done. }
      intros [j'|e] _; [|done]. apply all_calls_bind with (R := T); [done|]. by intros [] _.
    Qed.
    (** The jobs picked. *)
    Notation any := (all_calls (λ _ _, True) True).
    Notation picks := (λ r : result (list (job M)), match r with Ok js => Forall nw js | Err _ => True end).
    Lemma any_batch total ids ready : Forall nw ready → any (pick_batch name total ids ready) picks.
    Proof.
      revert ready. induction ids as [|i ids IH]; intros ready Hr; cbn [pick_batch]; [done|].
      assert (any (let? _ := do (QMove (format_queue_name name Queued) (format_queue_name name Queued) 1 Back Front) in
        pick_batch name total ids ready) picks) as Hrot.
      { apply all_calls_bind with (R := T); [done|]. intros [l|e] _; [by apply IH|done]. }
      apply all_calls_bind with (R := T); [eapply all_calls_mono; [| | |apply ok_get]; done|].
      intros [[j|]|e] _; [|exact Hrot|done]. apply all_calls_bind with (R := T); [done|]. intros now _.
      destruct (_ && _ && _); [|exact Hrot].
      apply all_calls_bind with (R := λ r : result (job M), match r with Ok j' => nw j' | Err _ => True end).
      { split; [done|]. intros t. cbn [bind]. split; [done|]. intros [u|e]; [|done]. split; [done|]. by intros x. }
      intros [j'|e] Hj; [|done]. apply all_calls_bind with (R := T); [done|]. intros [l|e] _; [|done]. apply IH.
      apply Forall_app. split; [done|]. by repeat constructor.
    Qed.
    Lemma any_loop fuel total ready cursor : Forall nw ready → any (pick_loop prof name fuel total ready cursor) picks.
    Proof.
      revert ready cursor. induction fuel as [|fuel IH]; intros ready cursor Hr; [done|]. cbn [pick_loop].
      apply all_calls_bind with (R := T); [done|]. intros [ids|e] _; [|done].
      destruct (i32_norm prof _) as [cursor'|]; [|done].
      eapply all_calls_bind; [by apply any_batch|]. intros [ready'|e] Hr'; [|done].
      destruct (_ <=? _)%nat; [done|]. destruct (_ <=? _); [done|]. by apply IH.
    Qed.
  End other.

  (** *** The loop itself *)
  Context (prof : profile) (clock : nat → time).
  Notation h := (mem_h clock).
  (** Never [Diverge], if between the calls the waiting list does not get shorter. *)
  Fixpoint nd {A} (w0 : world) (p : prog A) (Q : world → A → Prop) : Prop :=
    match p with
    | Ret a => Q w0 a
    | Panic => True
    | Diverge => False
    | @Eff _ X e f => ∀ w, (len w0 <= len w)%nat →
        nd (h X e w).1 (f (h X e w).2) Q ∧
        match fail_ans e with
        | Some bad => nd w (f bad) Q ∧ nd (h X e w).1 (f bad) Q
        | None => True
        end
    end.
  Lemma nd_mono {A} w (p : prog A) (Q Q' : world → A → Prop) :
    (∀ w a, Q w a → Q' w a) → nd w p Q → nd w p Q'.
  Proof.
    intros HQ. revert w. induction p as [a| | |X e f IH]; intros w; cbn; auto. intros H w1 Hl.
    destruct (H w1 Hl) as (H2 & H3). split; [by apply IH|].
    destruct (fail_ans e); [|done]. destruct H3. split; by apply IH.
  Qed.
  Lemma nd_bind {A B} w (p : prog A) (f : A → prog B) (Q : world → B → Prop) :
    nd w p (λ w' a, nd w' (f a) Q) → nd w (bind p f) Q.
  Proof.
    revert w. induction p as [a| | |X e g IH]; intros w; cbn; auto. intros H w1 Hl.
    destruct (H w1 Hl) as (H2 & H3). split; [by apply IH|].
    destruct (fail_ans e); [|done]. destruct H3. split; by apply IH.
  Qed.
  Lemma nd_len {A} w w' (p : prog A) : (len w <= len w')%nat → nd w p (λ _ _, True) → nd w' p (λ _ _, True).
  Proof. destruct p as [a| | |X e f]; cbn; auto. intros Hl H w1 Hl1. apply H. lia. Qed.
  Lemma nd_total {A} w (p : prog A) (Q : A → Prop) : all_calls (λ _ _, True) False p Q → nd w p (λ _ _, True).
  Proof.
    revert w. induction p as [a| | |X e f IH]; intros w; cbn -[mem_h]; auto. intros [_ H] w1 _. split; [auto|].
    destruct (fail_ans e); auto.
  Qed.
  (** Calls that keep the list. *)
  Lemma nd_keeps {A} n w (p : prog A) :
    (n <= len w)%nat → all_calls keeps False p T → nd w p (λ w' _, (n <= len w')%nat).
  Proof.
    revert w. induction p as [a| | |X e f IH]; intros w Hn; cbn -[mem_h]; auto. intros [He H] w1 Hl.
    pose proof (keeps_len clock X e w1 He). split; [apply IH; [lia|auto]|].
    destruct (fail_ans e); [|done]. split; (apply IH; [lia|auto]).
  Qed.
  Lemma nd_then {A B} n w (p : prog A) (f : A → prog B) (Q : world → B → Prop) :
    (n <= len w)%nat → all_calls keeps False p T → (∀ w' a, (n <= len w')%nat → nd w' (f a) Q) → nd w (bind p f) Q.
  Proof. intros Hn Hp Hf. apply nd_bind. eapply nd_mono; [|by eapply nd_keeps]. cbn. eauto. Qed.
  Lemma nd_batch n total ids (ready : list (job M)) w :
    (n + length ids <= len w)%nat →
    nd w (pick_batch q total ids ready) (λ w' r, match r with Ok _ => (n <= len w')%nat | Err _ => True end).
  Proof.
    revert ready w. induction ids as [|id ids IH]; intros ready w Hn; cbn [pick_batch length] in *; [cbn; lia|].
    assert (∀ w', (n + S (length ids) <= len w')%nat →
      nd w' (let? _ := do (QMove waiting waiting 1 Back Front) in pick_batch q total ids ready)
        (λ w' r, match r with Ok _ => (n <= len w')%nat | Err _ => True end)) as Hrot.
    { intros w' Hn'. apply nd_bind. cbn -[mem_move]. intros w1 Hl.
      pose proof (proj2 (move_len (st w1) waiting Back Front) eq_refl) as Hm.
      destruct (mem_move (st w1) waiting waiting 1 Back Front) as [s r]. cbn [fst snd] in *.
      split; [|done]. apply IH. cbn. lia. }
    apply (nd_then (n + S (length ids))); [done|apply ok_get|]. intros w1 [[j|]|e] Hw1; [|by apply Hrot|done].
    apply (nd_then (n + S (length ids))); [done|by split|]. intros w2 now Hw2.
    destruct (_ && _ && _); [|by apply Hrot].
    apply (nd_then (n + S (length ids))); [done|apply (ok_stamp (prc j))|]. intros w3 [j'|e] Hw3; [|done].
    apply nd_bind. cbn -[mem_move]. intros w4 Hl.
    pose proof (proj1 (move_len (st w4) (format_queue_name q Running) Back Front)) as Hm.
    destruct (mem_move (st w4) waiting _ 1 Back Front) as [s r]. cbn [fst snd] in *.
    split; [|done]. apply IH. cbn. lia.
  Qed.
  Lemma wrap32_sub t n : wrap32 (wrap32 t - n) = wrap32 (t - n).
  Proof.
    unfold wrap32. f_equal.
    replace ((t + 2147483648) mod 4294967296 - 2147483648 - n + 2147483648)
      with ((t + 2147483648) mod 4294967296 - n) by lia.
    rewrite Zminus_mod_idemp_l. f_equal. lia.
  Qed.
  Lemma wrap32_small t : i32_min <= t <= i32_max → wrap32 t = t.
  Proof. unfold wrap32, i32_min, i32_max. intros H. rewrite Z.mod_small; lia. Qed.
  Lemma i32_norm_wrap z n : i32_norm prof z = Some n → n = wrap32 z.
  Proof.
    unfold i32_norm, in_i32. destruct (_ && _) eqn:E.
    - intros [= <-]. apply andb_true_iff in E as [E1%Z.leb_le E2%Z.leb_le]. by rewrite wrap32_small.
    - destruct prof; [done|]. by intros [= <-].
  Qed.
  (** [t]: how many of the ids counted at the beginning have not been looked at. *)
  Lemma nd_loop fuel t total (ready : list (job M)) cursor w :
    cursor = wrap32 t → 0 <= t <= Z.of_nat (len w) → t < Z.of_nat fuel →
    nd w (pick_loop prof q fuel total ready cursor) (λ _ _, True).
  Proof.
    revert t ready cursor w. induction fuel as [|fuel IH]; intros t ready cursor w Hc Ht Hf; [lia|]. cbn [pick_loop].
    apply nd_bind. cbn -[mem_get BATCH]. intros w1 Hl. rewrite mem_get_spec. split; [|done].
    set (ids := take BATCH (from_end Back (ql (st w1) waiting))) in *.
    assert (length ids = min BATCH (len w1)) as Hids by (unfold ids; by rewrite take_length, from_end_length).
    destruct (i32_norm prof _) as [cursor'|] eqn:Ec; [|done]. apply i32_norm_wrap in Ec.
    rewrite Hc, wrap32_sub in Ec. apply nd_bind.
    eapply nd_mono; [|apply (nd_batch (len w1 - length ids))]; [|lia].
    intros w2 [ready'|e] Hw2; [|done]. destruct (_ <=? _)%nat; [done|]. destruct (Z.leb_spec cursor' 0) as [|Hpos]; [done|].
    unfold BATCH in Hids.
    assert (0 < t - Z.of_nat (length ids)) as Hgo.
    { destruct (Z.lt_ge_cases 0 (t - Z.of_nat (length ids))) as [|Hle]; [done|]. rewrite wrap32_small in Ec; [lia|].
      unfold i32_min, i32_max. lia. }
    eapply IH; [exact Ec|lia|lia].
  Qed.
End loop.

Section races.
  Context {M : Type} `{SM : Serde M}.
  Context (prof : nat → profile).
  Context (sched : nat → string → option (time → option time)).
  Context (name : nat → string).
  Context (clock : nat → nat → time).
  Notation mem := (λ i, mem_h (clock i)).
  Notation rstep := (race_step prof sched name mem).
  Context (i : nat).
  Notation q := (name i).
  Local Notation TT := (λ _ _, True).
  Implicit Types r : race M world.

  Lemma nd_do_tick fuel c (ts : list (task M)) w : nd q (clock i) w (do_tick prof name fuel i c ts) TT.
  Proof.
    apply nd_bind. eapply nd_mono; [by intros ? ? _|]. apply nd_bind. cbn -[mem_count]. intros w1 _.
    assert (∀ n w', nd q (clock i) w' (if (max_processing_jobs c <=? n)%nat then Ret (Ok [])
      else try_pick (M := M) prof name fuel i (max_processing_jobs c - n)) TT) as H.
    { intros n w'. destruct (_ <=? _)%nat; [done|]. apply nd_bind. cbn -[mem_count]. intros w2 _. split; [|done].
      rewrite mem_count_spec. eapply nd_loop; [done|lia|lia]. }
    split; [apply H|]. split; apply H.
  Qed.
  Lemma nd_step_of fuel c ts (e : event M) w :
    Forall nwt ts → nd q (clock i) w (step_of prof sched name fuel i c ts e) TT.
  Proof.
    intros Ht.
    assert (match e with EvTick | EvStart => False | _ => True end →
      nd q (clock i) w (ev_prog (prof i) (sched i) (name i) c ts e) TT) as H.
    { intros He. destruct e; try (by destruct He); try (by eapply nd_total, ok_cancel);
        (eapply nd_total, all_calls_mono; [| | |by apply (ok_event q)]; done). }
    destruct e; try (by apply H); (apply nd_bind; eapply nd_mono; [|apply nd_do_tick]; done).
  Qed.
  Lemma any_step_of fuel k c ts (e : event M) :
    Forall nwt ts → all_calls (λ _ _, True) True (step_of prof sched name fuel k c ts e) nws.
  Proof.
    intros Ht.
    assert (∀ c' ts', Forall nwt ts' → all_calls (λ _ _, True) True (do_tick prof name fuel k c' ts') (Forall nwt)) as Htick.
    { intros c' ts' Ht'. eapply all_calls_bind with (R := λ r : result (list (job M)), match r with Ok js => Forall nw js | Err _ => True end).
      - apply all_calls_bind with (R := T); [done|]. intros r _. cbv zeta. destruct (_ <=? _)%nat; [constructor|].
        apply all_calls_bind with (R := T); [done|]. intros [n|] _; [|done]. apply (any_loop q). constructor.
      - intros [js|] Hjs; cbn; [|done]. apply Forall_app. split; [done|]. apply Forall_map.
        eapply list.Forall_impl; [exact Hjs|]. by intros j Hj. }
    destruct e; try (eapply all_calls_mono; [| | |by apply (ok_event q)]; done);
      try (eapply all_calls_mono; [| | |by apply ok_cancel]; done);
      (eapply all_calls_bind; [apply Htick; by try constructor|]; by intros ts').
  Qed.
  Lemma keep_step_of fuel k c ts (e : event M) :
    Forall nwt ts → name k ≠ q ∨ match e with EvTick | EvStart | EvCancel _ => False | _ => True end →
    all_calls (keeps q) True (step_of prof sched name fuel k c ts e) T.
  Proof.
    intros Hts [Hne|He].
    - assert (∀ A (p : prog A) (Q : A → Prop), conf (M := M) (lists_of (name k)) (λ _, True) p Q → all_calls (keeps q) True p T) as Hc.
      { intros A p Q. induction p as [a| | |X e' f IH]; try done. intros [Hw Hf]. split.
        - assert (∀ l, lists_of (name k) l → l ≠ format_queue_name q Queued) as Hl.
          { intros l [s ->] E. by apply queue_key_inj in E as [E _]. }
          destruct e'; try done; cbn in *; [split; apply Hl; tauto|by apply Hl].
        - intros x. apply IH, Hf. destruct e'; try done; cbn.
          + destruct x as [ids|]; [|done]. by apply list.Forall_forall.
          + destruct x as [ids|]; [|done]. by apply list.Forall_forall.
          + by destruct x as [[v|]|]. }
      assert (∀ c' ts', all_calls (keeps q) True (do_tick (M := M) prof name fuel k c' ts') T) as Ht.
      { intros c' ts'. apply all_calls_bind with (R := T); [|done]. apply all_calls_bind with (R := T); [done|]. intros x _. cbv zeta.
        destruct (_ <=? _)%nat; [done|]. apply all_calls_bind with (R := T); [done|]. intros [n|] _; [|done].
        eapply Hc. by apply conf_pick_loop. }
      assert (all_calls (keeps q) True (ev_prog (prof k) (sched k) (name k) c ts e) T) as Hev.
      { eapply Hc. apply conf_ev_prog; [by apply list.Forall_forall|]. clear. by induction e. }
      destruct e; try exact Hev; (apply all_calls_bind with (R := T); [apply Ht|done]).
    - assert (all_calls (keeps q) False (ev_prog (prof k) (sched k) (name k) c ts e) nws) as H by by apply ok_event.
      assert (all_calls (keeps q) True (ev_prog (prof k) (sched k) (name k) c ts e) T) as H'
        by (eapply all_calls_mono; [| | |exact H]; done).
      destruct e; try (by destruct He); exact H'.
  Qed.

  (** What holds of process k. *)
  Definition cp (w : world) (k : nat) (p : proc M) : Prop :=
    Forall nwt (p_tasks p) ∧
    match p_now p with
    | Some (e, c) =>
        all_calls (λ _ _, True) True c nws ∧
        if decide (k = i) then nd q (clock i) w c TT else all_calls (keeps q) True c T
    | None => True
    end.
  Definition calm r : Prop := ∀ k p, r_procs r !! k = Some p → cp (r_world r) k p.
  Lemma cp_gone w k p : cp w k (gone p).
  Proof. split; [constructor|done]. Qed.
  Lemma calm_put r k p : calm r → cp (r_world r) k p → calm (put r k p).
  Proof. intros Hr Hp k' p' [(<- & <- & _)|[_ H]]%list_lookup_insert_Some; [done|by apply Hr]. Qed.
  Lemma calm_step r x : calm r → spares name i x → calm (rstep r x).
  Proof.
    intros Hr Hx.
    destruct x as [k e n|k f|k]; cbn [race_step]; destruct (r_procs r !! k) as [p|] eqn:Ep; try done;
      pose proof (Hr k p Ep) as [Ht Hn].
    - apply calm_put; [done|].
      unfold race_begin. destruct (p_now p) as [[e' c]|] eqn:En; [split; [done|by rewrite En]|].
      assert (∀ a, cp (r_world r) k (Proc (p_cfg p) (p_tasks p) a (Some (e, step_of prof sched name n k (p_cfg p) (p_tasks p) e)))) as Hgo.
      { intros a. split; [done|]. cbn [p_now]. split; [by apply any_step_of|]. case_decide as E; [subst k; by apply nd_step_of|].
        apply keep_step_of; [done|]. by destruct Hx as [|Hx]. }
      assert (cp (r_world r) k p) as Hp by (split; [done|by rewrite En]).
      destruct (p_alive p), e; first [apply Hgo|apply cp_gone|exact Hp].
    - unfold race_call. destruct (p_now p) as [[e c]|] eqn:En; [|done]. destruct Hn as [Hany Hn].
      destruct c as [[[[c ts] js] a]| | |X e' g].
      + intros k' p' [(<- & <- & _)|[_ H]]%list_lookup_insert_Some; [by split|by apply Hr].
      + apply calm_put; [done|apply cp_gone].
      + apply calm_put; [done|apply cp_gone].
      + destruct Hany as [_ Hany]. case_decide as Hk.
        * subst k. pose proof (Hn (r_world r) (le_n _)) as [N1 N2].
          assert (∀ w x, nd q (clock i) w (g x) TT → calm (Race w (<[i:=Proc (p_cfg p) (p_tasks p) (p_alive p) (Some (e, g x))]> (r_procs r)) (r_runs r) (r_answers r))) as Hgo.
          { intros w x Hnd k' p' [(<- & <- & _)|[Hne H]]%list_lookup_insert_Some.
            - split; [done|]. cbn [p_now]. split; [apply Hany|]. by rewrite decide_True.
            - destruct (Hr k' p' H) as [A1 A2]. split; [done|]. destruct (p_now p') as [[e0 c0]|]; [|done].
              by rewrite decide_False in * by done. }
          unfold call_h. destruct (fail_ans e') as [bad|]; [destruct N2 as [N2 N3]; destruct f|];
            try (destruct (mem_h (clock i) X e' (r_world r)) as [w' x]); by apply Hgo.
        * destruct Hn as [He Hg].
          assert (∀ w x, (length (ql (st (r_world r)) (format_queue_name q Queued)) <= length (ql (st w) (format_queue_name q Queued)))%nat →
            calm (Race w (<[k:=Proc (p_cfg p) (p_tasks p) (p_alive p) (Some (e, g x))]> (r_procs r)) (r_runs r) (r_answers r))) as Hgo.
          { intros w x Hl k' p' [(<- & <- & _)|[Hne H]]%list_lookup_insert_Some.
            - split; [done|]. cbn [p_now]. split; [apply Hany|]. by rewrite decide_False.
            - destruct (Hr k' p' H) as [A1 A2]. split; [done|]. destruct (p_now p') as [[e0 c0]|]; [|done].
              destruct A2 as [A2 A3]. split; [done|]. case_decide; [|done]. by eapply nd_len. }
          pose proof (keeps_len q (clock k) X e' (r_world r) He) as Hl.
          unfold call_h. destruct (fail_ans e') as [bad|]; [destruct f|];
            try (destruct (mem_h (clock k) X e' (r_world r)) as [w' x]); apply Hgo; cbn in *; first [done|lia].
    - apply calm_put; [done|apply cp_gone].
  Qed.
  Lemma race_never_exhausted n (xs : list (race_event M)) :
    Forall (spares name i) xs → ¬ exhausted (race_after prof sched name clock n xs) i.
  Proof.
    intros Hxs.
    assert (calm (race_after prof sched name clock n xs)) as Hc.
    { apply (ralong_inv prof sched name clock calm (λ _, spares name i)).
      - intros r x. apply calm_step.
      - intros k p Hp. apply init_idle in Hp as ->. split; [constructor|done].
      - by eapply ralong_forall. }
    intros (p & e & Hp & Hn). destruct (Hc i p Hp) as [_ H]. rewrite Hn, decide_True in H by done. by destruct H.
  Qed.

  (** *** Steps end *)
  Inductive sub : prog (step_result (M := M)) → prog (step_result (M := M)) → Prop :=
  | sub_eff (X : Set) (e : eff X) g x : sub (g x) (Eff e g).
  Lemma busy_step r x p e c :
    r_procs r !! i = Some p → p_now p = Some (e, c) →
    idle (rstep r x) i ∨
    (∃ p' c', r_procs (rstep r x) !! i = Some p' ∧ p_now p' = Some (e, c') ∧ sub c' c) ∨
    r_procs (rstep r x) !! i = Some p ∧ ∀ f, x ≠ RCall i f.
  Proof.
    intros Hp Hn. assert (i < length (r_procs r))%nat as Hlt by by eapply lookup_lt_Some.
    destruct (decide (match x with RBegin k _ _ | RCall k _ | RDie k => k end = i)) as [E|Hne].
    - destruct x as [k e' n|k f|k]; subst k; cbn [race_step]; rewrite Hp.
      + right. right. unfold race_begin. rewrite Hn. cbn. by rewrite list_lookup_insert.
      + unfold race_call. rewrite Hn. destruct c as [[[[c ts] js] a]| | |X e' g].
        * left. eexists. cbn. by rewrite list_lookup_insert.
        * left. exists (gone p). cbn. by rewrite list_lookup_insert.
        * left. exists (gone p). cbn. by rewrite list_lookup_insert.
        * destruct (call_h mem i f X e' (r_world r)) as [w x]. right. left. cbn. rewrite list_lookup_insert by done.
          eexists _, (g x). split; [done|]. split; [done|]. constructor.
      + left. exists (gone p). cbn. by rewrite list_lookup_insert.
    - right. right. split; [|intros f ->; done]. rewrite <-Hp.
      destruct x as [k e' n|k f|k]; cbn [race_step]; (destruct (r_procs r !! k) as [p'|] eqn:E; [|done]).
      + cbn. by rewrite list_lookup_insert_ne.
      + unfold race_call. destruct (p_now p') as [[e0 c0]|]; [|done]. destruct c0 as [[[[c0 ts] js] a]| | |X e' g];
          [..|destruct (call_h mem k f X e' (r_world r))]; cbn; by rewrite list_lookup_insert_ne.
      + cbn. by rewrite list_lookup_insert_ne.
  Qed.
  Lemma up_to_S (s : nat → race_event M) m : up_to s (S m) = up_to s m ++ [s m].
  Proof. unfold up_to. by rewrite seq_S, map_app. Qed.
  Lemma sub_wf : well_founded sub.
  Proof.
    intros c. induction c as [x| | |X e g IH]; constructor; intros c' Hs.
    1, 2, 3: inversion Hs.
    remember (Eff e g) as c eqn:E. destruct Hs as [X' e' g' x].
    assert (∃ x', g' x = g x') as [x' ->]; [|apply IH].
    apply (f_equal (λ p, match p with @Eff _ Y e k => ∃ y, g' x = k y | _ => True end)) in E.
    rewrite <-E. by exists x.
  Qed.
  Lemma race_steps_end n (s : nat → race_event M) :
    (i < n)%nat → (∀ a, ∃ b, (a <= b)%nat ∧ ∃ f, s b = RCall i f) →
    ∀ a, ∃ b, (a <= b)%nat ∧ idle (race_after prof sched name clock n (up_to s b)) i.
  Proof.
    intros Hi Hs. set (r m := race_after prof sched name clock n (up_to s m)).
    assert (∀ m, r (S m) = rstep (r m) (s m)) as Hnext.
    { intros m. unfold r. rewrite up_to_S. unfold race_after, race_run. by rewrite fold_left_app. }
    assert (∀ m, length (r_procs (r m)) = n) as Hlen.
    { intros m. induction m as [|m IH]; [apply repeat_length|]. rewrite Hnext.
      destruct (s m) as [k e' n'|k f|k]; cbn [race_step]; (destruct (r_procs (r m) !! k) as [p'|] eqn:E; [|done]).
      - cbn. by rewrite insert_length.
      - unfold race_call. destruct (p_now p') as [[e0 c0]|]; [|done]. destruct c0 as [[[[c0 ts] js] a]| | |X e' g];
          [..|destruct (call_h mem k f X e' (r_world (r m)))]; cbn; by rewrite insert_length.
      - cbn. by rewrite insert_length. }
    assert (∀ (c : prog step_result) p e a, r_procs (r a) !! i = Some p → p_now p = Some (e, c) →
      ∃ b, (a <= b)%nat ∧ idle (r b) i) as Hend.
    { intros c. induction c as [c IH] using (well_founded_induction sub_wf). intros p e a Hp Hn.
      destruct (Hs a) as (b & Hb & f & Hf). replace b with (a + (b - a))%nat in Hf by lia. revert Hf.
      generalize (b - a)%nat as d. clear b Hb. intros d. revert a Hp. induction d as [|d IHd]; intros a Hp Hf;
        (destruct (busy_step (r a) (s a) p e c Hp Hn) as [H|[(p' & c' & H1 & H2 & H3)|[H H']]];
         [exists (S a); rewrite Hnext; split; [lia|done]
         |rewrite <-Hnext in H1; destruct (IH c' H3 p' e (S a) H1 H2) as (b & Hb & Hib); exists b; split; [lia|done]|]).
      - rewrite Nat.add_0_r in Hf. by destruct (H' f).
      - rewrite <-Hnext in H. destruct (IHd (S a)) as (b & Hb & Hib); [done| |exists b; split; [lia|done]].
        by rewrite <-Hf, Nat.add_succ_r. }
    intros a. destruct (lookup_lt_is_Some_2 (r_procs (r a)) i) as [p Hp]; [by rewrite Hlen|].
    destruct (p_now p) as [[e c]|] eqn:Hn; [by eapply Hend|]. exists a. split; [done|]. by exists p.
  Qed.
  Lemma race_steps_end_all n (s : nat → race_event M) :
    (i < n)%nat → (∀ a, ∃ b, (a <= b)%nat ∧ ∃ f, s b = RCall i f) → (∀ a, spares name i (s a)) →
    (∀ a, ∃ b, (a <= b)%nat ∧ idle (race_after prof sched name clock n (up_to s b)) i) ∧
    (∀ a, ¬ exhausted (race_after prof sched name clock n (up_to s a)) i).
  Proof.
    intros Hi Hs Hq. split; [by apply race_steps_end|]. intros a. apply race_never_exhausted.
    apply list.Forall_forall. intros x Hx. apply elem_of_list_In, in_map_iff in Hx as (k & <- & _). apply Hq.
  Qed.
End races.
