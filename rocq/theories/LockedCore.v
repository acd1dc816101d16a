(** Who holds which id: an invariant of the lists, with what each process holds as auxiliary state. *)
From Verif Require Import Spec SpecRace SpecLocked BackendFacts WorldFacts LifeFacts RaceList.

(** What a process does to the lists: nothing special; it picks, [l] being the ids of the batch that are
    still to be looked at and [n] the number of ids it may still take; or it cancels. *)
Inductive mode := Idle | Picks (l : list string) (n : nat) | Cancels.
(** The ids of the processing list that it executes, and ids in no list that it will put into one. *)
Record ghost := G { g_run : list string; g_out : list string; g_mode : mode }.

Definition tot (f : ghost → list string) (id : string) (gs : list ghost) : nat := cnt id (concat (map f gs)).
Lemma tot_insert f id gs i g g' :
  gs !! i = Some g → (tot f id (<[i := g']> gs) + cnt id (f g) = tot f id gs + cnt id (f g'))%nat.
Proof.
  unfold tot. revert i. induction gs as [|x gs IH]; intros [|i] H; try done.
  - injection H as ->. change (<[0%nat := g']> (g :: gs)) with (g' :: gs). cbn [map concat]. rewrite !cnt_app. lia.
  - change (<[S i := g']> (x :: gs)) with (x :: <[i := g']> gs). cbn [map concat]. rewrite !cnt_app.
    specialize (IH i H). lia.
Qed.
Lemma tot_ge f id gs i g : gs !! i = Some g → (cnt id (f g) <= tot f id gs)%nat.
Proof.
  unfold tot. revert i. induction gs as [|x gs IH]; intros [|i] H; try done; cbn [map concat]; rewrite cnt_app.
  - injection H as ->. lia.
  - specialize (IH i H). lia.
Qed.

Section core.
  (** The limit, if there is to be one, and whether every id of the processing list is executed by some
      process. *)
  Context (lim : option nat) (ex : bool).
  Definition le_lim (n : nat) : Prop := match lim with Some m => (n <= m)%nat | None => True end.
  Lemma le_lim_le n m : (n <= m)%nat → le_lim m → le_lim n.
  Proof. unfold le_lim. destruct lim; [lia|done]. Qed.

  Record core (K : list string) (Q R : list string) (gs : list ghost) : Prop := {
    c_once : ∀ id, (cnt id Q + cnt id R + tot g_out id gs <= 1)%nat;
    c_held : ∀ id, (tot g_run id gs <= cnt id R)%nat;
    c_known : ∀ id, id ∉ K → (cnt id Q + cnt id R + tot g_out id gs = 0)%nat;
    c_lock : ∀ i k g g' l n, gs !! i = Some g → gs !! k = Some g' → g_mode g = Picks l n →
      i = k ∨ g_mode g' = Idle;
    c_batch : ∀ i g l n, gs !! i = Some g → g_mode g = Picks l n →
      (∃ pre, Q = pre ++ rev l) ∧ le_lim (length R + n);
    c_lim : le_lim (length R);
    c_full : ex = true → ∀ id, (cnt id R <= tot g_run id gs)%nat;
  }.

  Definition self_ok (g g' : ghost) (Q' R' : list string) : Prop :=
    match g_mode g' with
    | Idle => True
    | Cancels => g_mode g = Cancels
    | Picks l n => (∃ l0 n0, g_mode g = Picks l0 n0) ∧ (∃ pre, Q' = pre ++ rev l) ∧ le_lim (length R' + n)
    end.
  Lemma core_upd K Q R gs i g g' Q' R' :
    core K Q R gs → gs !! i = Some g →
    (∀ id, (cnt id Q' + cnt id R' + cnt id (g_out g') <= cnt id Q + cnt id R + cnt id (g_out g))%nat) →
    (∀ id, (cnt id (g_run g') + cnt id R <= cnt id (g_run g) + cnt id R')%nat) →
    (ex = true → ∀ id, (cnt id (g_run g) + cnt id R' <= cnt id (g_run g') + cnt id R)%nat) →
    (g_mode g = Idle → (∀ pre l, Q = pre ++ rev l → ∃ pre', Q' = pre' ++ rev l) ∧ (length R' <= length R)%nat) →
    self_ok g g' Q' R' → le_lim (length R') →
    core K Q' R' (<[i := g']> gs).
  Proof.
    intros [H1 H2 H3 H4 H5 H6 H7] Hg Ho Hr Hx Hid Hs Hl.
    pose proof (lookup_lt_Some _ _ _ Hg) as Hlt.
    split.
    - intros id. specialize (H1 id). specialize (Ho id). pose proof (tot_insert g_out id gs i g g' Hg). lia.
    - intros id. specialize (H2 id). specialize (Hr id). pose proof (tot_insert g_run id gs i g g' Hg).
      pose proof (tot_ge g_run id gs i g Hg). lia.
    - intros id Hk. specialize (H3 id Hk). specialize (Ho id). pose proof (tot_insert g_out id gs i g g' Hg).
      pose proof (tot_ge g_out id gs i g Hg). lia.
    - intros a b ga gb l n Ha Hb Hm.
      apply list_lookup_insert_Some in Ha as [(<- & <- & _)|[Hia Ha]];
        apply list_lookup_insert_Some in Hb as [(<- & <- & _)|[Hib Hb]].
      + by left.
      + unfold self_ok in Hs. rewrite Hm in Hs. destruct Hs as ((l0 & n0 & Hm0) & _).
        destruct (H4 _ _ _ _ _ _ Hg Hb Hm0); auto.
      + destruct (H4 _ _ _ _ _ _ Ha Hg Hm) as [?|E]; [by left; congruence|]. right.
        unfold self_ok in Hs. destruct (g_mode g') as [|l' n'|]; [done| |congruence].
        destruct Hs as ((l0 & n0 & Hm0) & _). congruence.
      + by eapply H4.
    - intros a ga l n Ha Hm. apply list_lookup_insert_Some in Ha as [(<- & <- & _)|[Hia Ha]].
      + unfold self_ok in Hs. rewrite Hm in Hs. by destruct Hs.
      + destruct (H4 _ _ _ _ _ _ Ha Hg Hm) as [->|E]; [done|]. destruct (H5 _ _ _ _ Ha Hm) as [[pre Hp] Hn].
        destruct (Hid E) as [Hq Hlen]. split; [by eapply Hq|]. eapply le_lim_le; [|exact Hn]. lia.
    - done.
    - intros E id. specialize (H7 E id). specialize (Hx E id). pose proof (tot_insert g_run id gs i g g' Hg). lia.
  Qed.

  (** Giving up what is held. *)
  Lemma core_weaken K Q R gs i g g' :
    core K Q R gs → gs !! i = Some g →
    (∀ id, (cnt id (g_run g') <= cnt id (g_run g))%nat) → (∀ id, (cnt id (g_out g') <= cnt id (g_out g))%nat) →
    (ex = true → ∀ id, (cnt id (g_run g) <= cnt id (g_run g'))%nat) →
    g_mode g' = Idle ∨ g_mode g' = g_mode g → core K Q R (<[i := g']> gs).
  Proof.
    intros Hc Hg Hr Ho Hx Hm. eapply core_upd; try done.
    - intros id. specialize (Ho id). lia.
    - intros id. specialize (Hr id). lia.
    - intros E id. specialize (Hx E id). lia.
    - intros _. split; [eauto|done].
    - unfold self_ok. destruct Hm as [->|Hm]; [done|]. destruct (g_mode g') as [|l n|] eqn:E; [done| |done].
      split; [by rewrite <-Hm; eauto|]. by eapply (c_batch _ _ _ _ Hc).
    - by apply c_lim in Hc.
  Qed.
  Lemma core_same K Q R gs i g : core K Q R gs → gs !! i = Some g → core K Q R (<[i := g]> gs).
  Proof. intros Hc Hg. by rewrite list_insert_id. Qed.
  (** An id goes from the process to the waiting list. *)
  Lemma core_push K Q R gs i g id o :
    core K Q R gs → gs !! i = Some g → g_out g = id :: o → g_mode g = Idle →
    core K (id :: Q) R (<[i := G (g_run g) o (g_mode g)]> gs).
  Proof.
    intros Hc Hg Ho Hm. eapply core_upd; try done; cbn [g_run g_out g_mode].
    - intros x. rewrite Ho, !cnt_cons. lia.
    - intros _. split; [|done]. intros pre l ->. by exists (id :: pre).
    - unfold self_ok. cbn. by rewrite Hm.
    - by apply c_lim in Hc.
  Qed.
  (** The end of an execution. *)
  Lemma core_rem K Q R gs i g id l o :
    core K Q R gs → gs !! i = Some g → g_run g ≡ₚ id :: l → g_mode g = Idle →
    g_out g = [] → (o = [] ∨ o = [id]) →
    core K Q (filter (λ y, y ≠ id) R) (<[i := G l o Idle]> gs).
  Proof.
    intros Hc Hg Hr Hm Ho Ho'.
    assert (cnt id R = 1%nat) as HR.
    { pose proof (c_once _ _ _ _ Hc id). pose proof (c_held _ _ _ _ Hc id). pose proof (tot_ge g_run id gs i g Hg) as Hge.
      rewrite (cnt_perm _ _ _ Hr), cnt_cons, bool_decide_true in Hge by done. lia. }
    eapply core_upd; try done; cbn [g_run g_out g_mode].
    - intros x. rewrite cnt_remove, Ho. destruct Ho' as [->| ->]; rewrite ?cnt_cons, !cnt_nil;
        destruct (bool_decide_reflect (x = id)) as [->|]; rewrite ?bool_decide_true, ?bool_decide_false by congruence; lia.
    - intros x. rewrite cnt_remove, (cnt_perm _ _ _ Hr), cnt_cons.
      destruct (bool_decide_reflect (x = id)) as [->|]; rewrite ?bool_decide_true, ?bool_decide_false by congruence; lia.
    - intros _ x. rewrite cnt_remove, (cnt_perm _ _ _ Hr), cnt_cons.
      destruct (bool_decide_reflect (x = id)) as [->|]; rewrite ?bool_decide_true, ?bool_decide_false by congruence; lia.
    - intros _. split; [eauto|]. apply filter_length.
    - eapply le_lim_le; [apply filter_length|]. by apply c_lim in Hc.
  Qed.
  (** A process that removes an id that it does not execute (after an error) only frees room. *)
  Lemma core_cancel K Q R gs i g id :
    core K Q R gs → gs !! i = Some g → g_mode g = Cancels →
    core K (filter (λ y, y ≠ id) Q) R (<[i := g]> gs).
  Proof.
    intros Hc Hg Hm. eapply core_upd; try done; cbn [g_run g_out g_mode].
    - intros x. rewrite cnt_remove. destruct (bool_decide_reflect (x = id)) as [->|]; lia.
    - intros H. congruence.
    - unfold self_ok. by rewrite Hm.
    - by apply c_lim in Hc.
  Qed.
  Lemma core_rotate K Q R gs i g id l n :
    core K Q R gs → gs !! i = Some g → g_mode g = Picks (id :: l) n →
    ∃ pre, Q = pre ++ [id] ∧ core K (id :: pre) R (<[i := G (g_run g) (g_out g) (Picks l n)]> gs).
  Proof.
    intros Hc Hg Hm. destruct (c_batch _ _ _ _ Hc _ _ _ _ Hg Hm) as [[pre Hq] Hn]. cbn in Hq.
    exists (pre ++ rev l). split; [by rewrite Hq, app_assoc|]. eapply core_upd; try done; cbn [g_run g_out g_mode].
    - intros x. rewrite Hq, !cnt_cons, !cnt_app, cnt_cons, cnt_nil. lia.
    - intros H. congruence.
    - unfold self_ok. cbn. rewrite Hm. split; [eauto|]. split; [by exists (id :: pre)|done].
    - by apply c_lim in Hc.
  Qed.
  Lemma core_pick K Q R gs i g id l n :
    core K Q R gs → gs !! i = Some g → g_mode g = Picks (id :: l) (S n) →
    ∃ pre, Q = pre ++ [id] ∧ core K pre (id :: R) (<[i := G (id :: g_run g) (g_out g) (Picks l n)]> gs).
  Proof.
    intros Hc Hg Hm. destruct (c_batch _ _ _ _ Hc _ _ _ _ Hg Hm) as [[pre Hq] Hn]. cbn in Hq.
    exists (pre ++ rev l). split; [by rewrite Hq, app_assoc|]. eapply core_upd; try done; cbn [g_run g_out g_mode].
    - intros x. rewrite Hq, !cnt_cons, !cnt_app, cnt_cons, cnt_nil. lia.
    - intros x. rewrite !cnt_cons. lia.
    - intros _ x. cbn [g_run]. rewrite !cnt_cons. lia.
    - intros H. congruence.
    - unfold self_ok. cbn. rewrite Hm. split; [eauto|]. split; [by exists pre|].
      eapply le_lim_le; [|exact Hn]. cbn. lia.
    - eapply le_lim_le; [|exact Hn]. cbn. lia.
  Qed.
  Lemma core_batch K Q R gs i g l n m :
    core K Q R gs → gs !! i = Some g → g_mode g = Picks l n →
    core K Q R (<[i := G (g_run g) (g_out g) (Picks (take m (rev Q)) n)]> gs).
  Proof.
    intros Hc Hg Hm. destruct (c_batch _ _ _ _ Hc _ _ _ _ Hg Hm) as [_ Hn]. eapply core_upd; try done; cbn [g_run g_out g_mode].
    - intros H. congruence.
    - unfold self_ok. cbn. rewrite Hm. split; [eauto|]. split; [|done]. exists (rev (drop m (rev Q))).
      by rewrite <-rev_app_distr, take_drop, rev_involutive.
    - by apply c_lim in Hc.
  Qed.
  Lemma core_room K Q R gs i g l n n' :
    core K Q R gs → gs !! i = Some g → g_mode g = Picks l n → le_lim (length R + n') →
    core K Q R (<[i := G (g_run g) (g_out g) (Picks [] n')]> gs).
  Proof.
    intros Hc Hg Hm Hn. eapply core_upd; try done; cbn [g_run g_out g_mode].
    - intros H. congruence.
    - unfold self_ok. cbn. rewrite Hm. split; [eauto|]. split; [exists Q; by rewrite app_nil_r|done].
    - by apply c_lim in Hc.
  Qed.
  (** Beginnings. *)
  Lemma core_submit K Q R gs i g id :
    core K Q R gs → gs !! i = Some g → id ∉ K → g_mode g = Idle →
    core (id :: K) Q R (<[i := G (g_run g) (id :: g_out g) Idle]> gs).
  Proof.
    intros Hc Hg Hid Hm. pose proof (c_known _ _ _ _ Hc id Hid) as Hk. destruct Hc as [H1 H2 H3 H4 H5 H6 H7]. split; try done.
    - intros x. specialize (H1 x). pose proof (tot_insert g_out x gs i g (G (g_run g) (id :: g_out g) Idle) Hg) as E.
      cbn [g_out] in E. rewrite cnt_cons in E. destruct (bool_decide_reflect (id = x)) as [->|]; lia.
    - intros x. specialize (H2 x). pose proof (tot_insert g_run x gs i g (G (g_run g) (id :: g_out g) Idle) Hg) as E.
      cbn [g_run] in E. lia.
    - intros x Hx. apply not_elem_of_cons in Hx as [Hx Hx']. specialize (H3 x Hx').
      pose proof (tot_insert g_out x gs i g (G (g_run g) (id :: g_out g) Idle) Hg) as E.
      cbn [g_out] in E. rewrite cnt_cons, bool_decide_false in E by done. lia.
    - intros a b ga gb l n Ha Hb Hma.
      apply list_lookup_insert_Some in Ha as [(<- & <- & _)|[Hia Ha]]; [done|].
      apply list_lookup_insert_Some in Hb as [(<- & <- & _)|[Hib Hb]]; [by right|]. by eapply H4.
    - intros a ga l n Ha Hma. apply list_lookup_insert_Some in Ha as [(<- & <- & _)|[Hia Ha]]; [done|]. by eapply H5.
    - intros E x. specialize (H7 E x). pose proof (tot_insert g_run x gs i g (G (g_run g) (id :: g_out g) Idle) Hg) as E'.
      cbn [g_run] in E'. lia.
  Qed.
  Lemma core_known K K' Q R gs : core K Q R gs → (∀ id, id ∈ K → id ∈ K') → core K' Q R gs.
  Proof. intros [H1 H2 H3 H4 H5 H6 H7] HK. split; try done. intros id Hid. apply H3. naive_solver. Qed.
  Lemma core_begin K Q R gs i g m :
    core K Q R gs → gs !! i = Some g → m = Picks [] 0 ∨ m = Cancels →
    (∀ k gk, gs !! k = Some gk → k ≠ i →
       match g_mode gk with Idle => True | Cancels => m = Cancels | Picks _ _ => False end) →
    core K Q R (<[i := G (g_run g) (g_out g) m]> gs).
  Proof.
    intros [H1 H2 H3 H4 H5 H6 H7] Hg Hm Hk. split; try done.
    - intros x. specialize (H1 x). pose proof (tot_insert g_out x gs i g (G (g_run g) (g_out g) m) Hg) as E.
      cbn [g_out] in E. lia.
    - intros x. specialize (H2 x). pose proof (tot_insert g_run x gs i g (G (g_run g) (g_out g) m) Hg) as E.
      cbn [g_run] in E. lia.
    - intros x Hx. specialize (H3 x Hx). pose proof (tot_insert g_out x gs i g (G (g_run g) (g_out g) m) Hg) as E.
      cbn [g_out] in E. lia.
    - intros a b ga gb l n Ha Hb Hma.
      apply list_lookup_insert_Some in Ha as [(<- & <- & _)|[Hia Ha]];
        apply list_lookup_insert_Some in Hb as [(<- & <- & _)|[Hib Hb]].
      + by left.
      + right. cbn in Hma. specialize (Hk b gb Hb ltac:(done)). destruct (g_mode gb); [done|done|congruence].
      + specialize (Hk a ga Ha ltac:(done)). by rewrite Hma in Hk.
      + by eapply H4.
    - intros a ga l n Ha Hma. apply list_lookup_insert_Some in Ha as [(<- & <- & _)|[Hia Ha]]; [|by eapply H5].
      cbn in Hma. destruct Hm as [->|Hm]; [|congruence]. injection Hma as <- <-.
      split; [exists Q; by rewrite app_nil_r|]. by rewrite Nat.add_0_r.
    - intros E x. specialize (H7 E x). pose proof (tot_insert g_run x gs i g (G (g_run g) (g_out g) m) Hg) as E'.
      cbn [g_run] in E'. lia.
  Qed.
End core.
