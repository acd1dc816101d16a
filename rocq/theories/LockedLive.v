(** Ticks that take turns take the waiting jobs. *)
From Verif Require Import Spec SpecRace SpecLocked BackendFacts WorldFacts PickFacts RaceFacts RaceList RaceLoop LockedLoop.

Section tick.
  Context {M : Type} `{SM : Serde M}.
  Context (prof : profile) (name : string) (clock : nat → nat → time) (k : nat) (id : string).
  Notation h := (mem_h (clock k)).
  Notation waiting := (format_queue_name name Queued).
  Notation wl w := (ql (st w) waiting).

  Definition rely (w0 w : world) : Prop := (∃ pre, wl w = pre ++ wl w0) ∧ (reads w0 <= reads w)%nat.
  Lemma rely_refl w : rely w w.
  Proof. split; [by exists []|done]. Qed.
  Lemma rely_trans w1 w2 w3 : rely w1 w2 → rely w2 w3 → rely w1 w3.
  Proof. intros [[p1 E1] L1] [[p2 E2] L2]. split; [|lia]. exists (p2 ++ p1). by rewrite E2, E1, app_assoc. Qed.
  Lemma rely_call (X : Set) (e : eff X) w : keeps name X e → rely w (h X e w).1.
  Proof.
    intros H. split; [by apply keeps_suffix|]. destruct e; cbn -[mem_move]; try lia.
    destruct (mem_move _ _ _ _ _ _). cbn. lia.
  Qed.
  Definition stays (w : world) : Prop := id ∈ wl w ∧ due_now (M := M) clock id w ∧ fits name w.

  (** The waiting list gets shorter before the program ends, or it ends with [Q]. *)
  Fixpoint lv {A} (w0 : world) (p : prog A) (Q : world → A → Prop) : Prop :=
    match p with
    | Ret a => Q w0 a
    | Panic | Diverge => True
    | @Eff _ X e f => ∀ w, rely w0 w → stays w →
        (length (wl (h X e w).1) < length (wl w))%nat ∨ lv (h X e w).1 (f (h X e w).2) Q
    end.
  Lemma lv_mono {A} w (p : prog A) (Q Q' : world → A → Prop) : (∀ w a, Q w a → Q' w a) → lv w p Q → lv w p Q'.
  Proof.
    intros HQ. revert w. induction p as [a| | |X e f IH]; intros w; cbn; auto. intros H w1 H1 H2.
    destruct (H w1 H1 H2); [by left|right; by apply IH].
  Qed.
  Lemma lv_bind {A B} w (p : prog A) (f : A → prog B) (Q : world → B → Prop) :
    lv w p (λ w' a, lv w' (f a) Q) → lv w (bind p f) Q.
  Proof.
    revert w. induction p as [a| | |X e g IH]; intros w; cbn; auto. intros H w1 H1 H2.
    destruct (H w1 H1 H2); [by left|right; by apply IH].
  Qed.
  Lemma lv_rely {A} w w' (p : prog A) (Q : world → A → Prop) :
    rely w w' → (∀ a, Q w a → Q w' a) → lv w p Q → lv w' p Q.
  Proof.
    destruct p as [a| | |X e f]; cbn; auto. intros Hr _ H w1 H1 H2. apply H; [|done]. by eapply rely_trans.
  Qed.
  Lemma wl_move w l : l ≠ waiting → (0 < length (wl w))%nat →
    (length (wl (h _ (QMove waiting l 1 Back Front) w).1) < length (wl w))%nat.
  Proof.
    intros Hl Hw. cbn -[mem_move]. pose proof (mem_move_ql (st w) waiting l 1 Back Front) as [_ Hm].
    destruct (mem_move (st w) waiting l 1 Back Front) as [s r]. cbn [fst snd st set_st] in *. rewrite Hm. unfold upd.
    rewrite (proj2 (String.eqb_neq waiting l)) by congruence. rewrite String.eqb_refl, from_end_length, drop_length, from_end_length. lia.
  Qed.
  Lemma wl_rotate w x pre : wl w = pre ++ [x] → wl (h _ (QMove waiting waiting 1 Back Front) w).1 = x :: pre.
  Proof.
    intros Hw. cbn -[mem_move]. pose proof (mem_move_ql (st w) waiting waiting 1 Back Front) as [_ Hm].
    destruct (mem_move (st w) waiting waiting 1 Back Front) as [s r]. cbn [fst snd st set_st] in *. rewrite Hm. unfold upd.
    rewrite !String.eqb_refl, Hw. cbn. rewrite rev_unit. cbn. by rewrite drop_0, rev_involutive.
  Qed.
  (** One batch: it takes a job, or the id is not in it. *)
  Lemma lv_batch total ids pre w :
    (0 < total)%nat → wl w = pre ++ rev ids →
    lv w (pick_batch (M := M) name total ids [])
      (λ w' r, id ∉ ids ∧ r = Ok [] ∧ ∃ l, wl w' = l ++ pre).
  Proof.
    intros Htot. revert w pre. induction ids as [|x ids IH]; intros w pre Hw; cbn [pick_batch].
    { split; [apply not_elem_of_nil|]. split; [done|]. exists []. by rewrite Hw, app_nil_r. }
    cbn [rev] in Hw. rewrite app_assoc in Hw.
    assert (∀ w', rely w w' → id ≠ x →
      lv w' (let? _ := do (QMove waiting waiting 1 Back Front) in pick_batch (M := M) name total ids [])
        (λ w' r, id ∉ x :: ids ∧ r = Ok [] ∧ ∃ l, wl w' = l ++ pre)) as Hrot.
    { intros w' Hr Hx. apply lv_bind. cbn [do]. intros w1 Hr1 _. right.
      pose proof (rely_trans _ _ _ Hr Hr1) as [[p Hp] _]. rewrite Hw, app_assoc in Hp. apply wl_rotate in Hp.
      destruct (mem_h (clock k) _ (QMove waiting waiting 1 Back Front) w1) as [w2 a] eqn:E.
      assert (∃ l, a = Ok l) as [l ->].
      { cbn -[mem_move] in E. destruct (mem_move _ _ _ _ _ _) in E. injection E as <- <-. by eexists. }
      cbn [fst snd lv] in *. eapply lv_mono; [|apply (IH w2 (x :: p ++ pre))].
      - cbn. intros w3 r (H1 & H2 & l' & H3). split; [by apply not_elem_of_cons|]. split; [done|].
        exists (l' ++ x :: p). by rewrite H3, <-app_assoc.
      - cbn. by rewrite Hp, app_assoc. }
    unfold get_from_storage. cbn [bind do]. intros w1 Hr1 [Hid [(j0 & Hj0 & Hdue) Hfit]]. right. cbn [mem_h fst snd bind].
    change (match mem_sget (st w1) STORAGE_HASH x with Some (Some js) => dec_job js | _ => None end) with (stored (M := M) w1 x).
    destruct (stored w1 x) as [j|] eqn:Ej.
    2: { apply Hrot; [done|]. intros <-. congruence. }
    unfold get_now. cbn [bind do]. intros w2 Hr2 _. right. cbn [mem_h fst snd bind].
    set (w3 := World (st w2) (S (reads w2)) (log w2)).
    assert (rely w w3) as Hr3.
    { eapply rely_trans; [exact Hr1|]. eapply rely_trans; [exact Hr2|]. split; [by exists []|]. cbn. lia. }
    destruct (is_ready j (clock k (reads w2))) eqn:Erd; cbn [andb].
    2: { apply Hrot; [done|]. intros <-. apply not_due_ready in Erd. apply Erd. rewrite Hj0 in Ej. injection Ej as <-.
         apply Hdue. apply Hr2. }
    rewrite (proj2 (Nat.ltb_lt _ _)) by (cbn; lia). cbn [existsb negb andb].
    apply lv_bind. unfold job_process, save_and_notify, upsert_to_storage, get_now_as_ms, get_now. cbn [bind do].
    intros w4 _ _. right. cbn [mem_h fst snd bind]. intros w5 _ _. right. cbn [mem_h fst snd bind].
    intros w6 _ _. right. cbn [mem_h fst snd bind lv]. intros w7 _ [Hid7 _]. left. apply wl_move.
    - intros E. by apply queue_key_inj in E as [_ E].
    - destruct (wl w7); [by apply elem_of_nil in Hid7|cbn; lia].
  Qed.
  (** [t]: how many of the ids counted at the beginning have not been looked at. *)
  Lemma lv_loop fuel total t w :
    (0 < total)%nat → Z.of_nat t <= i32_max → id ∈ take t (rev (wl w)) →
    lv w (pick_loop (M := M) prof name fuel total [] (Z.of_nat t)) (λ _ _, False).
  Proof.
    intros Htot. revert t w. induction fuel as [|fuel IH]; intros t w Ht Hid; [done|]. cbn [pick_loop].
    apply lv_bind. cbn [do]. intros w1 [[p Hp] _] _. right. cbn [mem_h fst snd lv]. rewrite mem_get_spec.
    destruct (i32_norm prof _) as [cursor'|] eqn:Ec; [|done].
    change (from_end Back (ql (st w1) waiting)) with (rev (wl w1)) in *. set (ids := take BATCH (rev (wl w1))) in *.
    assert (wl w1 = rev (drop BATCH (rev (wl w1))) ++ rev ids) as Hsplit.
    { unfold ids. by rewrite <-rev_app_distr, take_drop, rev_involutive. }
    assert (id ∈ take t (rev (wl w1))) as Hid1.
    { rewrite Hp, rev_app_distr. rewrite firstn_app. apply elem_of_app. by left. }
    apply lv_bind. eapply lv_mono; [|by apply (lv_batch total ids (rev (drop BATCH (rev (wl w1)))) w1)].
    intros w2 r (Hni & -> & l & Hl). cbn [length]. rewrite (proj2 (Nat.leb_gt _ _)) by lia.
    rewrite <-(take_drop BATCH (rev (wl w1))) in Hid1. fold ids in Hid1. rewrite firstn_app in Hid1.
    apply elem_of_app in Hid1 as [Hin|Hin]; [by apply elem_of_take in Hin as (? & ?%elem_of_list_lookup_2 & _)|].
    assert (0 < t - length ids)%nat as Hpos.
    { destruct (t - length ids)%nat; [by apply elem_of_nil in Hin|lia]. }
    assert (cursor' = Z.of_nat (t - length ids)) as ->.
    { apply i32_norm_wrap in Ec. rewrite wrap32_small in Ec; unfold i32_min, i32_max in *; lia. }
    destruct (Z.leb_spec (Z.of_nat (t - length ids)) 0); [lia|].
    apply IH; [lia|]. rewrite Hl, rev_app_distr, rev_involutive. rewrite firstn_app. apply elem_of_app. by left.
  Qed.
End tick.

Section counts.
  Context {M : Type} `{SM : Serde M}.
  Context (name : string) (clock : nat → nat → time) (id : string).
  Notation stays := (stays (M := M) name clock id).
  Notation lv k := (lv (M := M) name clock k id).
  Notation running := (format_queue_name name Running).
  Notation rl w := (ql (st w) running).
  Definition is_rc {X : Set} (e : eff X) : bool := match e with QCount l => String.eqb l running | _ => false end.
  (** If the program counts the processing jobs and finds less than [lim], it takes a job. *)
  Fixpoint fc {A} (k lim : nat) (c : prog A) : Prop :=
    match c with
    | @Eff _ X e f =>
        (∀ w, is_rc e = true → stays w → (length (rl w) < lim)%nat →
           lv k (mem_h (clock k) X e w).1 (f (mem_h (clock k) X e w).2) (λ _ _, False)) ∧
        ∀ x, fc k lim (f x)
    | _ => True
    end.
  Notation nrc := (all_calls (λ _ e, is_rc e = false) True).
  Lemma fc_none {A} k lim (c : prog A) : nrc c T → fc k lim c.
  Proof. induction c as [a| | |X e f IH]; cbn; auto. intros [H1 H2]. split; [congruence|auto]. Qed.
  Lemma fc_bind {A B} k lim (c : prog A) (f : A → prog B) : fc k lim c → (∀ a, nrc (f a) T) → fc k lim (bind c f).
  Proof.
    intros Hc Hf. induction c as [a| | |X e g IH]; cbn; auto.
    - by apply fc_none.
    - destruct Hc as [H1 H2]. split; [|auto]. intros w E1 E2 E3. apply lv_bind. eapply lv_mono; [|by apply H1]. done.
  Qed.
  Lemma waiting_not_rc : String.eqb (format_queue_name name Queued) running = false.
  Proof. apply String.eqb_neq. intros E. by apply queue_key_inj in E as [_ E]. Qed.
  Lemma nrc_batch total ids (ready : list (job M)) : nrc (pick_batch name total ids ready) T.
  Proof.
    revert ready. induction ids as [|i ids IH]; intros ready; cbn [pick_batch]; [done|].
    assert (nrc (let? _ := do (QMove (format_queue_name name Queued) (format_queue_name name Queued) 1 Back Front) in
      pick_batch name total ids ready) T) as Hrot.
    { split; [done|]. intros [l|e]; [apply IH|done]. }
    apply all_calls_bind with (R := T); [by split|]. intros [[j|]|e] _; [|exact Hrot|done].
    split; [done|]. intros now. cbn [bind]. destruct (_ && _ && _); [|exact Hrot].
    split; [done|]. intros t. cbn [bind]. split; [done|]. intros [u|e]; [|done]. split; [done|]. intros y. cbn [bind].
    split; [done|]. intros [l|e]; [apply IH|done].
  Qed.
  Lemma nrc_loop prof fuel total (ready : list (job M)) cursor : nrc (pick_loop prof name fuel total ready cursor) T.
  Proof.
    revert ready cursor. induction fuel as [|fuel IH]; intros ready cursor; [done|]. cbn [pick_loop].
    split; [done|]. intros [ids|e]; [|done]. cbn [bind]. destruct (i32_norm prof _) as [c'|]; [|done].
    eapply all_calls_bind; [apply nrc_batch|]. intros [r|e] _; [|done].
    destruct (_ <=? _)%nat; [done|]. destruct (_ <=? _); [done|apply IH].
  Qed.
  Lemma fc_tick prof fuel k c (ts : list (task M)) :
    fc k (max_processing_jobs c) (do_tick prof (λ _, name) fuel k c ts).
  Proof.
    apply fc_bind; [|done]. split.
    - intros w _ (Hid & Hdue & Hfit) Hlt. cbn [mem_h fst snd bind]. cbv zeta. rewrite mem_count_spec, (proj2 (Nat.leb_gt _ _)) by done.
      unfold try_pick. apply lv_bind. cbn [do lv]. intros w1 _ (Hid1 & _ & Hfit1). right. cbn [mem_h fst snd LockedLive.lv].
      rewrite mem_count_spec. unfold fits in Hfit1. change (qlist name w1 Queued) with (ql (st w1) (format_queue_name name Queued)) in Hfit1.
      rewrite wrap32_small by (unfold i32_min in *; lia). apply lv_loop; [lia|done|].
      rewrite take_ge by (by rewrite rev_length). by apply elem_of_list_In, in_rev; rewrite rev_involutive; apply elem_of_list_In.
    - intros x. cbn [bind]. cbv zeta. destruct (_ <=? _)%nat; [done|]. apply fc_none. split; [apply waiting_not_rc|].
      intros [n|e]; [|done]. apply nrc_loop.
  Qed.
End counts.

Section races.
  Context {M : Type} `{SM : Serde M}.
  Context (prof : nat → profile).
  Context (sched : nat → string → option (time → option time)).
  Context (name : string).
  Context (clock : nat → nat → time) (id : string).
  Notation mem := (λ i, mem_h (clock i)).
  Notation names := (λ _ : nat, name).
  Notation rstep := (race_step prof sched names mem).
  Notation wl w := (ql (st w) (format_queue_name name Queued)).
  Notation stays := (stays (M := M) name clock id).
  Notation lv k := (lv (M := M) name clock k id).
  Notation fc := (fc (M := M) name clock id).
  Notation ended := (ended_free_ticks prof sched name clock).
  Notation came := (came prof sched name clock).
  Implicit Types r : race M world.

  Definition limit (e : event M) (c : wq_config) : nat :=
    max_processing_jobs (match e with EvStart => wq_config_default | _ => c end).
  Definition fcs r : Prop :=
    ∀ k p e c, r_procs r !! k = Some p → p_now p = Some (e, c) → begins e → fc k (limit e (p_cfg p)) c.
  Lemma fcs_put r k p :
    fcs r → (∀ e c, p_now p = Some (e, c) → begins e → fc k (limit e (p_cfg p)) c) → fcs (put r k p).
  Proof. intros Hr Hp k' p' e c [(<- & <- & _)|[_ H]]%list_lookup_insert_Some; [by apply Hp|by eapply Hr]. Qed.
  Lemma fcs_step r x : fcs r → fcs (rstep r x).
  Proof.
    intros Hr. destruct x as [k e n|k f|k]; cbn [race_step]; destruct (r_procs r !! k) as [p|] eqn:Ep; try done.
    - apply fcs_put; [done|]. unfold race_begin. destruct (p_now p) as [[e' c]|] eqn:En.
      { intros e0 c0 H. rewrite En in H. injection H as <- <-. by apply (Hr k p). }
      assert (∀ a e0 c0, p_now (Proc (p_cfg p) (p_tasks p) a (Some (e, step_of prof sched names n k (p_cfg p) (p_tasks p) e))) = Some (e0, c0) →
        begins e0 → fc k (limit e0 (p_cfg p)) c0) as Hgo.
      { intros a e0 c0 [= <- <-] Hb. destruct e; try done; (apply fc_bind; [apply fc_tick|done]). }
      destruct (p_alive p), e; first [apply Hgo|done|by (cbn; congruence)].
    - unfold race_call. destruct (p_now p) as [[e c]|] eqn:En; [|done]. destruct c as [[[[c ts] js] a]| | |X e' g].
      + intros k' p' e0 c0 [(<- & <- & _)|[_ H]]%list_lookup_insert_Some; [done|by eapply Hr].
      + by apply fcs_put.
      + by apply fcs_put.
      + destruct (call_h mem k f X e' (r_world r)) as [w x].
        intros k' p' e0 c0 [(<- & <- & _)|[_ H]]%list_lookup_insert_Some; [|by eapply Hr].
        cbn. intros [= <- <-] Hb. by apply (Hr k p e _ Ep En Hb).
    - by apply fcs_put.
  Qed.
  Lemma fcs_after n xs : fcs (race_after prof sched names clock n xs).
  Proof.
    induction xs as [|x xs IH] using rev_ind.
    - intros k p e c Hp. by apply init_idle in Hp as ->.
    - unfold race_after, race_run. rewrite fold_left_app. cbn [fold_left]. by apply fcs_step.
  Qed.

  (** How often the waiting list gets shorter. *)
  Fixpoint shrunk r xs : nat :=
    match xs with
    | [] => 0
    | x :: xs' => (if (length (wl (r_world (rstep r x))) <? length (wl (r_world r)))%nat then 1 else 0) + shrunk (rstep r x) xs'
    end%nat.
  Lemma shrunk_came xs r :
    (shrunk r xs + length (wl (r_world (race_run prof sched names mem r xs))) <= length (wl (r_world r)) + came r xs)%nat.
  Proof.
    revert r. induction xs as [|x xs IH]; intros r; cbn [shrunk SpecLocked.came race_run fold_left]; [lia|].
    specialize (IH (rstep r x)). unfold race_run in *. unfold qlist. fold (ql (st (r_world r)) (format_queue_name name Queued)).
    fold (ql (st (r_world (rstep r x))) (format_queue_name name Queued)).
    destruct (Nat.ltb_spec (length (wl (r_world (rstep r x)))) (length (wl (r_world r)))); lia.
  Qed.

  (** In a tick with a free slot that has not taken anything. *)
  Definition in_tick (f : option nat) (b : bool) r : Prop :=
    ∀ k, f = Some k → b = false → ∃ p e c, r_procs r !! k = Some p ∧ p_now p = Some (e, c) ∧ begins e ∧ lv k (r_world r) c (λ _ _, False).
  Lemma in_tick_put f b r k p p' :
    in_tick f b r → r_procs r !! k = Some p → f ≠ Some k ∨ p_now p' = p_now p → in_tick f b (put r k p').
  Proof.
    intros Hr Hp Hor k' E1 E2. destruct (Hr k' E1 E2) as (p0 & e & c & H1 & H2 & H3 & H4).
    destruct (decide (k' = k)) as [->|Hne].
    - assert (p0 = p) as -> by congruence. destruct Hor as [|Hor]; [done|]. exists p', e, c. cbn.
      rewrite list_lookup_insert by by eapply lookup_lt_Some. rewrite Hor. done.
    - exists p0, e, c. cbn. by rewrite list_lookup_insert_ne.
  Qed.
  Lemma rely_call_h k f (X : Set) (e : eff X) w : keeps name X e → rely name w (call_h mem k f X e w).1.
  Proof.
    intros He. pose proof (rely_call name clock k X e w He) as H. unfold call_h.
    destruct (fail_ans e) as [bad|]; [destruct f|]; cbn; try apply rely_refl; try done;
      by destruct (mem_h (clock k) X e w).
  Qed.
  Ltac fin := cbn iota in *; lia.
  Lemma ended_bound xs r f b :
    calm' name clock r → fcs r → in_tick f b r →
    (∀ ys zs, xs = ys ++ zs → locked (race_run prof sched names mem r ys) ∧ stays (r_world (race_run prof sched names mem r ys))) →
    ralong prof sched names clock ticks_ok r xs →
    (ended f r xs <= (if b then 1 else 0) + shrunk r xs)%nat.
  Proof.
    revert r f b. induction xs as [|x xs IH]; intros r f b Hc Hf Ht Hall Hok; [cbn; fin|]. destruct Hok as [Hok1 Hok].
    destruct (Hall [] (x :: xs) eq_refl) as [Hlk Hst]. cbn in Hlk, Hst.
    assert (∀ f' b', in_tick f' b' (rstep r x) → (ended f' (rstep r x) xs <= (if b' then 1 else 0) + shrunk (rstep r x) xs)%nat) as IH'.
    { intros f' b' Ht'. apply IH; [by apply calm_step'|by apply fcs_step|done| |done].
      intros ys zs ->. by apply (Hall (x :: ys) zs). }
    clear IH Hall Hok.
    cbn [ended_free_ticks shrunk].
    set (sh := (if (length (wl (r_world (rstep r x))) <? length (wl (r_world r)))%nat then 1 else 0)%nat).
    assert (∀ b', in_tick None b' (rstep r x)) as Hnone by done.
    assert (∀ f', in_tick f' true (rstep r x)) as Htrue by done.
    destruct x as [i e n|i fl|i].
    - enough (in_tick f b (rstep r (RBegin i e n))) as H by (specialize (IH' f b H); fin).
      destruct b; [done|]. clear -Ht. cbn [race_step]. destruct (r_procs r !! i) as [p|] eqn:Ep; [|done].
      eapply in_tick_put; [done|done|]. destruct (p_now p) eqn:En; [right; unfold race_begin; by rewrite En|].
      left. intros ->. destruct (Ht i eq_refl eq_refl) as (p0 & e0 & c0 & H1 & H2 & _). congruence.
    - destruct (free_now name r i) eqn:Efree.
      { enough (in_tick (Some i) false (rstep r (RCall i fl))) as H by (specialize (IH' (Some i) false H); fin).
        clear IH' Hnone Htrue Ht. unfold free_now in Efree. cbn [race_step]. destruct (r_procs r !! i) as [p|] eqn:Ep; [|done].
        destruct (p_now p) as [[e c]|] eqn:En; [|done].
        assert (begins e ∧ match c with Eff (QCount l) _ => String.eqb l (format_queue_name name Running) &&
          (length (qlist name (r_world r) Running) <? limit e (p_cfg p))%nat | _ => false end = true) as [Hb Hfree] by by destruct e.
        destruct c as [| | |X e' g]; try done. destruct e'; try done. apply andb_true_iff in Hfree as [Hl Hlt].
        apply Nat.ltb_lt in Hlt. assert (fl = FOk) as ->.
        { destruct Hok1 as [|Hok1]; [done|]. destruct (Hok1 p Ep). unfold picks. rewrite En. by destruct e. }
        destruct (Hf i p e _ Ep En Hb) as [Hlv _]. specialize (Hlv (r_world r) Hl Hst Hlt).
        intros k [= <-] _. unfold race_call. rewrite En. cbn [call_h fail_ans mem_h] in *. eexists _, e, _. cbn [r_procs r_world].
        rewrite list_lookup_insert by by eapply lookup_lt_Some. split; [done|]. split; [done|]. by split. }
      case_bool_decide as Ef; [subst f|].
      + destruct (r_procs r !! i) as [[cfg ts al now]|] eqn:Ep; [|specialize (IH' None b (Hnone b)); fin].
        destruct now as [[e c]|]; [|specialize (IH' None b (Hnone b)); fin].
        assert (b = false → begins e ∧ lv i (r_world r) c (λ _ _, False)) as Hlv.
        { intros E. destruct (Ht i eq_refl E) as (p0 & e0 & c0 & H1 & H2 & H3). assert (p0 = Proc cfg ts al (Some (e, c))) as -> by congruence.
          injection H2 as <- <-. done. }
        destruct c as [res| | |X e' g].
        * specialize (IH' None false (Hnone _)). destruct b; [fin|]. by destruct (Hlv eq_refl).
        * specialize (IH' None b (Hnone b)). fin.
        * specialize (IH' None b (Hnone b)). fin.
        * destruct b; [specialize (IH' (Some i) true (Htrue _)); fin|]. destruct (Hlv eq_refl) as [Hb H].
          assert (fl = FOk) as ->.
          { destruct Hok1 as [|Hok1]; [done|]. destruct (Hok1 _ Ep). unfold picks. by destruct e. }
          specialize (H (r_world r) (rely_refl _ _) Hst).
          assert (rstep r (RCall i FOk) = Race (mem_h (clock i) X e' (r_world r)).1
            (<[i := Proc cfg ts al (Some (e, g (mem_h (clock i) X e' (r_world r)).2))]> (r_procs r)) (r_runs r) (r_answers r)) as E.
          { cbn [race_step]. rewrite Ep. unfold race_call. cbn [p_now p_cfg p_tasks p_alive].
            replace (call_h mem i FOk X e' (r_world r)) with (mem_h (clock i) X e' (r_world r)) by (unfold call_h; by destruct (fail_ans e')).
            by destruct (mem_h (clock i) X e' (r_world r)). }
          destruct H as [H|H].
          -- specialize (IH' (Some i) true (Htrue _)). unfold sh. rewrite E. cbn [r_world]. rewrite (proj2 (Nat.ltb_lt _ _)) by done.
             rewrite E in IH'. fin.
          -- enough (in_tick (Some i) false (rstep r (RCall i FOk))) as H' by (specialize (IH' (Some i) false H'); fin).
             rewrite E. intros k [= <-] _. eexists _, e, _. cbn [r_procs r_world].
             rewrite list_lookup_insert by by eapply lookup_lt_Some. split; [done|]. split; [done|]. by split.
      + enough (in_tick f b (rstep r (RCall i fl))) as H by (specialize (IH' f b H); fin).
        destruct b; [done|]. intros k -> _. destruct (Ht k eq_refl eq_refl) as (p0 & e0 & c0 & H1 & H2 & H3 & H4).
        assert (i ≠ k) as Hne by congruence. cbn [race_step]. destruct (r_procs r !! i) as [p|] eqn:Ep; [|by exists p0, e0, c0].
        unfold race_call. destruct (p_now p) as [[e c]|] eqn:En; [|by exists p0, e0, c0].
        destruct c as [[[[c ts] js] a]| | |X e' g]; try (exists p0, e0, c0; cbn; by rewrite list_lookup_insert_ne).
        destruct (Hc i p Ep) as [_ Hi]. rewrite En in Hi. destruct Hi as (_ & [Htk|[Hkp _]] & _).
        { exfalso. apply Hne. symmetry. apply (Hlk k i p0 p); [done|done| |].
          - unfold picks. rewrite H2. by destruct e0.
          - unfold picks, cancelling. rewrite En. destruct e; try done; auto. }
        pose proof (rely_call_h i fl X e' (r_world r) Hkp) as Hrel. destruct (call_h mem i fl X e' (r_world r)) as [w y].
        exists p0, e0, c0. cbn [r_procs r_world fst] in *. rewrite list_lookup_insert_ne by done. split; [done|]. split; [done|].
        split; [done|]. by eapply lv_rely.
    - case_bool_decide as Ef; [specialize (IH' None b (Hnone b)); fin|].
      enough (in_tick f b (rstep r (RDie i))) as H by (specialize (IH' f b H); fin).
      cbn [race_step]. destruct (r_procs r !! i) as [p|] eqn:Ep; [|done]. eapply in_tick_put; [done|done|by left].
  Qed.

  (** An id that waits and is due all the time: fewer ticks with a free slot end than ids are waiting or come. *)
  Lemma locked_free_ticks n ys xs :
    let r := race_after prof sched names clock n ys in
    always_locked prof sched name clock n (ys ++ xs) → ralong prof sched names clock ticks_ok r xs →
    (∀ zs zs', xs = zs ++ zs' → let w := r_world (race_run prof sched names mem r zs) in
       id ∈ qlist name w Queued ∧ due_now (M := M) clock id w ∧ fits name w) →
    (ended None r xs < length (qlist name (r_world r) Queued) + came r xs)%nat.
  Proof.
    intros r Hlk Hok Hall. pose proof (shrunk_came xs r) as Hs.
    assert (ended None r xs <= 0 + shrunk r xs)%nat as Hb.
    { apply (ended_bound xs r None false); [|apply fcs_after|done| |done].
      - apply calm_after. intros zs zs' ->. apply (Hlk zs (zs' ++ xs)). by rewrite app_assoc.
      - intros zs zs' E. split; [|by apply (Hall zs zs')]. unfold r.
        assert (race_run prof sched names mem (race_after prof sched names clock n ys) zs = race_after prof sched names clock n (ys ++ zs)) as ->
          by (unfold race_after, race_run; by rewrite fold_left_app).
        apply (Hlk (ys ++ zs) zs'). by rewrite E, app_assoc. }
    destruct (Hall xs [] ltac:(by rewrite app_nil_r)) as [Hid _].
    change (qlist name (r_world r) Queued) with (wl (r_world r)).
    change (id ∈ wl (r_world (race_run prof sched names mem r xs))) in Hid.
    destruct (wl (r_world (race_run prof sched names mem r xs))); [by apply elem_of_nil in Hid|]. cbn in Hs. lia.
  Qed.

  Lemma answers_mono xs r : ∃ l, r_answers (race_run prof sched names mem r xs) = r_answers r ++ l.
  Proof.
    revert r. induction xs as [|x xs IH]; intros r; [exists []; by rewrite app_nil_r|].
    destruct (IH (rstep r x)) as [l Hl]. cbn. unfold race_run in Hl. rewrite Hl.
    enough (∃ l', r_answers (rstep r x) = r_answers r ++ l') as [l' ->] by (exists (l' ++ l); by rewrite app_assoc).
    clear. assert (∃ l', r_answers r = r_answers r ++ l') by (exists []; by rewrite app_nil_r).
    destruct x as [i e n|i f|i]; cbn [race_step]; (destruct (r_procs r !! i) as [p|]; [|done]); [done| |done].
    unfold race_call. destruct (p_now p) as [[e [[[[c ts] js] a]| | |X e' g]]|]; try done; [by eexists|].
    by destruct (call_h mem i f X e' (r_world r)).
  Qed.
  Lemma ralong_prefix Q xs ys r :
    ralong prof sched names clock Q r (xs ++ ys) → ralong prof sched names clock Q r xs.
  Proof. revert r. induction xs as [|x xs IH]; intros r; cbn; [done|]. intros [H1 H2]. auto. Qed.
  Lemma prefixes {A} (P : list A → Prop) `{!∀ l, Decision (P l)} xs :
    (∀ zs zs', xs = zs ++ zs' → P zs) ∨ ∃ zs zs', xs = zs ++ zs' ∧ ¬ P zs.
  Proof.
    induction xs as [|x xs IH] using rev_ind.
    - destruct (decide (P [])) as [Hx|Hx]; [left|right; by exists [], []]. intros zs zs' E. symmetry in E.
      by apply app_eq_nil in E as [-> _].
    - destruct IH as [IH|(zs & zs' & -> & Hx)]; [|right; exists zs, (zs' ++ [x]); by rewrite app_assoc].
      destruct (decide (P (xs ++ [x]))) as [Hx|Hx]; [left|right; exists (xs ++ [x]), []; by rewrite app_nil_r].
      intros zs zs' E. destruct zs' as [|y zs'] using rev_ind.
      + rewrite app_nil_r in E. by subst.
      + rewrite app_assoc in E. apply app_inj_tail in E as [E _]. by eapply IH.
  Qed.
  Lemma locked_taken n ys xs i j c :
    let r := race_after prof sched names clock n ys in
    always_locked prof sched name clock n (ys ++ xs) → ralong prof sched names clock ticks_ok r xs →
    ralong prof sched names clock (untouched names name id) (race_init world_empty n) (ys ++ xs) →
    jid j = id → (i, EvEnqueue j c, RUnit (Ok tt)) ∈ r_answers r →
    (∀ zs zs', xs = zs ++ zs' → let w := r_world (race_run prof sched names mem r zs) in
       fits name w ∧ (id ∈ qlist name w Queued → due_now (M := M) clock id w)) →
    (length (qlist name (r_world r) Queued) + came r xs <= ended None r xs)%nat →
    ∃ zs zs', xs = zs ++ zs' ∧ id ∈ qlist name (r_world (race_run prof sched names mem r zs)) Running.
  Proof.
    intros r Hlk Hok Hun Hj Ha Hall Hn.
    destruct (prefixes (λ zs, id ∈ qlist name (r_world (race_run prof sched names mem r zs)) Queued) xs) as [H|(zs & zs' & E & H)].
    - exfalso. pose proof (locked_free_ticks n ys xs Hlk Hok) as Hlt. fold r in Hlt. enough (ended None r xs < length (qlist name (r_world r) Queued) + came r xs)%nat by lia.
      apply Hlt. intros zs zs' E. pose proof (H zs zs' E) as Hz. destruct (Hall zs zs' E) as [H1 H2]. auto.
    - exists zs, zs'. split; [done|]. subst xs.
      assert (race_run prof sched names mem r zs = race_after prof sched names clock n (ys ++ zs)) as Er
        by (unfold r, race_after, race_run; by rewrite fold_left_app).
      destruct (answers_mono zs r) as [l Hl]. rewrite Er in *.
      rewrite app_assoc in Hun. apply ralong_prefix in Hun.
      destruct (race_listed name id prof sched names clock n (ys ++ zs) i j c Hun Hj) as [[Hq|Hr] _]; [|done|done].
      rewrite Hl. apply elem_of_app. by left.
  Qed.
  Lemma run_after n ys zs :
    race_run prof sched names mem (race_after prof sched names clock n ys) zs = race_after prof sched names clock n (ys ++ zs).
  Proof. unfold race_after, race_run. by rewrite fold_left_app. Qed.
  Lemma locked_free_ticks' n ys xs :
    let r := race_after prof sched names clock n ys in
    always_locked prof sched name clock n (ys ++ xs) → ralong prof sched names clock ticks_ok r xs →
    (∀ zs zs', xs = zs ++ zs' → let w := r_world (race_after prof sched names clock n (ys ++ zs)) in
       id ∈ qlist name w Queued ∧ due_now (M := M) clock id w ∧ fits name w) →
    (ended None r xs < length (qlist name (r_world r) Queued) + came r xs)%nat.
  Proof. intros r H1 H2 H3. apply locked_free_ticks; [done|done|]. intros zs zs' E. rewrite run_after. by apply (H3 zs zs'). Qed.
  Lemma locked_taken' n ys xs i j c :
    let r := race_after prof sched names clock n ys in
    always_locked prof sched name clock n (ys ++ xs) → ralong prof sched names clock ticks_ok r xs →
    ralong prof sched names clock (untouched names name id) (race_init world_empty n) (ys ++ xs) →
    jid j = id → (i, EvEnqueue j c, RUnit (Ok tt)) ∈ r_answers r →
    (∀ zs zs', xs = zs ++ zs' → let w := r_world (race_after prof sched names clock n (ys ++ zs)) in
       fits name w ∧ (id ∈ qlist name w Queued → due_now (M := M) clock id w)) →
    (length (qlist name (r_world r) Queued) + came r xs <= ended None r xs)%nat →
    ∃ zs zs', xs = zs ++ zs' ∧ id ∈ qlist name (r_world (race_after prof sched names clock n (ys ++ zs))) Running.
  Proof.
    intros r H1 H2 H3 H4 H5 H6 H7. destruct (locked_taken n ys xs i j c H1 H2 H3 H4 H5) as (zs & zs' & E & H).
    - intros zs zs' E. rewrite run_after. by apply (H6 zs zs').
    - done.
    - exists zs, zs'. rewrite run_after in H. done.
  Qed.
End races.
