(** The order of the processing list. *)
From Verif Require Import Spec SpecSched BackendFacts WorldFacts MicroFacts LifeFacts HistFacts LifeProps CrashFacts PickFacts SchedFacts.
Open Scope Z_scope.

Section slots.
  Context {M : Type} `{SM : Serde M} {SO : SerdeOk M}.
  Context (prof : profile).
  Context (sched : string → option (time → option time)).
  Context (name : string).
  Context (clock : nat → time).
  Notation after := (after prof sched name clock).
  Notation show := (show (M := M) name).
  Notation eids b := (map (λ x, jid x.1) (execs b)).
  Implicit Types b : board M.

  Lemma without_in_order (l : list (job M * stage)) i x old :
    l !! i = Some x → NoDup (rev (map (λ x, jid x.1) l) ++ old) →
    without (jid x.1) (rev (map (λ x, jid x.1) l) ++ old) = rev (map (λ x, jid x.1) (delete i l)) ++ old.
  Proof.
    intros Hi Hnd. apply elem_of_list_split_length in Hi as (l1 & l2 & -> & Hl).
    assert (delete i (l1 ++ x :: l2) = l1 ++ l2) as -> by (subst i; apply delete_middle).
    unfold without. revert Hnd. rewrite !map_app, !rev_app_distr. cbn [map rev].
    rewrite <-!app_assoc. cbn [app]. intros Hnd.
    apply NoDup_app in Hnd as (_ & Hd & Hn). cbn [app] in Hn.
    rewrite !list.filter_app.
    assert (∀ l : list string, jid x.1 ∉ l → filter (λ k, k ≠ jid x.1) l = l) as Hf.
    { intros l H. induction l as [|y l IH]; [done|]. rewrite filter_cons_True; [|intros ->; apply H; by left].
      f_equal. apply IH. intros ?. apply H. by right. }
    apply list.NoDup_cons in Hn as [Hx Hn].
    rewrite Hf; [|intros H; apply (Hd _ H); by left].
    rewrite filter_cons_False by (by intros H; apply H).
    rewrite Hf by done. done.
  Qed.

  Definition in_order b : Prop := ∃ old, slots b = rev (eids b) ++ old.
  Definition exact_order b : Prop := slots b = rev (eids b).
  Lemma map_insert_same (l : list (job M * stage)) i x y : l !! i = Some x → jid y.1 = jid x.1 →
    map (λ x, jid x.1) (<[i := y]> l) = map (λ x, jid x.1) l.
  Proof. intros Hi Hy. rewrite list_fmap_insert. rewrite Hy. apply list_insert_id. by rewrite list_lookup_fmap, Hi. Qed.

  (** One step of the scheduler: the process starts or ends, or the old part is kept. *)
  Lemma order_step (N : time → Prop) b e r b' old :
    sched_step sched N b e r b' → NoDup (slots b) → slots b = rev (eids b) ++ old →
    ¬ (e = EvTick ∧ 2 ^ 31 <= Z.of_nat (length (waiting b))) →
    ¬ (e = EvStart ∧ 2 ^ 31 <= Z.of_nat (length (waiting b))) →
    (execs b = [] ∨ up b = true) →
    slots b' = rev (eids b') ++ old ∨ up b = true ∧ up b' = false ∧ execs b' = [].
  Proof.
    intros Hs Hnd Ho Hl Hl' Hup.
    assert (∀ b1, slots b1 = slots b → execs b1 = execs b → slots b1 = rev (eids b1) ++ old ∨ up b = true ∧ up b1 = false ∧ execs b1 = []) as Hsame.
    { intros b1 -> ->. by left. }
    assert (∀ b1 b2, slots b1 = slots b → execs b1 = execs b → tick N b1 b2 → ¬ (2 ^ 31 <= Z.of_nat (length (waiting b1))) →
      slots b2 = rev (eids b2) ++ old) as Htick.
    { intros b1 b2 H1 H2 Ht Hn. destruct Ht as [?|(js & w' & _ & _ & _ & _ & _ & _ & Hs2 & Hx2 & _)]; [done|].
      rewrite Hs2, Hx2, H1, H2, Ho, map_app, rev_app_distr, map_map. cbn [fst]. by rewrite <-app_assoc. }
    unfold sched_step in Hs. destruct (up b) eqn:Eu.
    - destruct e as [j ec|k|k|k|c'| |i u| | |e' n|]; try done.
      + destruct Hs as [_ Hs]. unfold submit in Hs. destruct (records b (jid j)) as [o|].
        * destruct (_ && _); [destruct Hs as (? & _ & _ & (_ & _ & _ & ? & ? & _)); by apply Hsame|].
          destruct (_ && _); [destruct Hs as (_ & (_ & _ & _ & ? & ? & _)); by apply Hsame|].
          destruct Hs as (_ & (_ & _ & _ & ? & ? & _)); by apply Hsame.
        * destruct Hs as (? & _ & _ & (_ & _ & _ & ? & ? & _)); by apply Hsame.
      + destruct Hs as [_ Hs]. unfold cancel in Hs. destruct (records b k) as [o|].
        * destruct (decide _); [destruct Hs as (? & _ & _ & (_ & _ & _ & ? & ? & _)); by apply Hsame|].
          destruct Hs as (_ & (_ & _ & _ & ? & ? & _)); by apply Hsame.
        * destruct Hs as (_ & (_ & _ & _ & ? & ? & _)); by apply Hsame.
      + destruct Hs as (_ & _ & (_ & _ & _ & ? & ? & _)); by apply Hsame.
      + destruct Hs as (a & _ & Hs). unfold retry_by_hand in Hs. destruct (records b k) as [o|].
        * destruct (bool_decide _); [destruct Hs as (_ & ? & _ & _ & (_ & _ & _ & ? & ? & _)); by apply Hsame|].
          destruct Hs as (_ & _ & (_ & _ & _ & ? & ? & _)); by apply Hsame.
        * destruct Hs as (_ & _ & (_ & _ & _ & ? & ? & _)); by apply Hsame.
      + destruct Hs as (_ & _ & (_ & _ & _ & ? & ? & _)); by apply Hsame.
      + destruct Hs as [_ Hs]. left. eapply (Htick b b'); try done. intros ?. by apply Hl.
      + destruct Hs as [_ Hs]. unfold go_on in Hs. destruct (execs b !! i) as [[j st]|] eqn:Ei.
        2:{ destruct Hs as (_ & (_ & _ & _ & ? & ? & _)); by apply Hsame. }
        destruct st.
        1-3: destruct Hs as (_ & (_ & _ & _ & H1 & H2 & _)); left; rewrite H1, H2; by erewrite map_insert_same.
        destruct Hs as (en & _ & Hs). destruct en as [j'|s' j'|].
        * destruct Hs as (? & _ & _ & (_ & _ & _ & H1 & H2 & _)). left. rewrite H1, H2, Ho. rewrite Ho in Hnd.
          exact (without_in_order (execs b) i (j, Returned) old Ei Hnd).
        * destruct Hs as (? & _ & _ & (_ & _ & _ & H1 & H2 & _)). left. rewrite H1, H2, Ho. rewrite Ho in Hnd.
          exact (without_in_order (execs b) i (j, Returned) old Ei Hnd).
        * destruct Hs as (_ & (? & _ & _ & _ & ? & _)). right. done.
      + destruct Hs as (_ & _ & (? & _ & _ & _ & ? & _)). right. done.
      + destruct Hs as (_ & _ & (? & _ & _ & _ & ? & _)). right. done.
      + destruct Hs as (_ & _ & (_ & _ & _ & ? & ? & _)); by apply Hsame.
    - destruct Hup as [Hx|?]; [|done].
      assert (unchanged b b' → slots b' = rev (eids b') ++ old ∨ false = true ∧ up b' = false ∧ execs b' = []) as Hun.
      { intros (_ & (_ & _ & _ & ? & ? & _)); by apply Hsame. }
      destruct e; try (destruct Hs as [_ Hs]; by apply Hun).
      destruct Hs as [_ Hs]. left. eapply Htick; [| |exact Hs|]; try done. intros ?. by apply Hl'.
  Qed.

  Notation same_life := (nobody_died prof sched name clock).
  Lemma slots_order es :
    ok_hist prof sched name clock initial es →
    (∀ es1 es2, es = es1 ++ es2 → Z.of_nat (length (qlist name (sw (after es1)) Queued)) < 2 ^ 31) →
    ∃ old, qlist name (sw (after es)) Running = rev (map (λ t, jid (t_job t)) (tasks (after es))) ++ old ∧
      (same_life es → old = []).
  Proof.
    induction es as [|e es IH] using rev_ind.
    { intros _ _. by exists []. }
    intros Hok Hlen.
    assert (ok_hist prof sched name clock initial es) as Hes by (by apply ok_hist_app in Hok as [? _]).
    destruct IH as (old & Ho & Hlife); [done| |].
    { intros es1 es2 ->. apply (Hlen es1 (es2 ++ [e])). by rewrite app_assoc. }
    pose proof (sched_refines prof sched name clock es e) as Hr. cbv zeta in Hr.
    assert (after (es ++ [e]) = (sys_step prof sched name (mem_h clock) (after es) e).1) as Ea by (apply go_snoc).
    rewrite Ea. destruct (sys_step prof sched name (mem_h clock) (after es) e) as [s' r] eqn:Es. cbn [fst].
    specialize (Hr Hok).
    assert (∀ s, map (λ t, jid (t_job t)) (tasks s) = eids (show s)) as Hx.
    { intros s. cbn [execs SpecSched.show]. by rewrite map_map. }
    assert (NoDup (slots (show (after es)))) as Hnd.
    { cbn. apply cnt_nodup. intros id. destruct (all_at_after prof sched name clock es Hes id) as [p Hp].
      destruct (at_pending name _ _ _ Hp) as [H _]. unfold times_in, cnt in *. lia. }
    specialize (Hlen es [e] eq_refl).
    assert (slots (show s') = rev (eids (show s')) ++ old ∨ up (show (after es)) = true ∧ up (show s') = false ∧ execs (show s') = []) as Hst.
    { eapply order_step; [exact Hr|done|by rewrite <-Hx|..].
      - cbn [waiting SpecSched.show]. rewrite rev_length. intros [_ ?]. lia.
      - cbn [waiting SpecSched.show]. rewrite rev_length. intros [_ ?]. lia.
      - destruct (alive (after es)) eqn:E; [by right|]. left. cbn. by rewrite (dead_tasks prof sched name clock es E). }
    rewrite Hx. destruct Hst as [Hst|(H1 & H2 & H3)].
    - exists old. split; [done|]. intros Hsl. apply Hlife. intros es1 e1 es2 -> H.
      apply (Hsl es1 e1 (es2 ++ [e])); [by rewrite <-app_assoc|done].
    - exists (slots (show s')). rewrite H3. split; [done|]. intros Hsl. exfalso.
      specialize (Hsl es e [] eq_refl H1). rewrite Ea in Hsl. cbn in Hsl, H2. congruence.
  Qed.
  Lemma processing es n :
    ok_hist prof sched name clock initial es →
    (∀ es1 es2, es = es1 ++ es2 → Z.of_nat (length (qlist name (sw (after es1)) Queued)) < 2 ^ 31) →
    let s := after es in
    ∃ old, (run (mem_h clock) (get_processing_job_ids name n) (sw s)).2 =
        Done (Ok (take n (rev (map (λ t, jid (t_job t)) (tasks s)) ++ old))) ∧
      (nobody_died prof sched name clock es → old = []).
  Proof.
    intros Hok Hlen s. destruct (slots_order es Hok Hlen) as (old & Ho & Hl). exists old. split; [|exact Hl].
    fold s in Ho. rewrite <-Ho. unfold get_processing_job_ids. cbn. by rewrite mem_get_spec.
  Qed.
End slots.
