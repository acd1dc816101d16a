(** Facts about single API calls, in any state of the world. *)
From Verif Require Import Spec JsonFacts BackendFacts WorldFacts MicroFacts LifeFacts HistFacts.

(** ** Reading back *)
Lemma cut_us_trunc t : cut_us t (trunc_us t).
Proof. split; [|apply trunc_us_bounds]. exists (to_us t). done. Qed.
Lemma near_us_round d : near_us d (round_us d).
Proof.
  split; [by exists (dur_to_us d)|]. unfold round_us, dur_to_us.
  destruct (Z.leb_spec 0 d).
  - pose proof (Z.div_mod (d + 500) 1000). pose proof (Z.mod_pos_bound (d + 500) 1000). lia.
  - pose proof (Z.div_mod (- d + 500) 1000). pose proof (Z.mod_pos_bound (- d + 500) 1000). lia.
Qed.
Lemma read_back_norm {M} (j : job M) : read_back j (norm_job j).
Proof.
  destruct j as [[id ty st re ca eq ra co cn rc] d]. unfold read_back. cbn.
  split; [done|]. split; [done|]. split.
  { destruct ty as [|a|e n r [k m o]]; cbn; constructor; try apply cut_us_trunc.
    destruct o; cbn; [apply cut_us_trunc|done]. }
  split; [done|]. split; [|done].
  destruct re as [[n m [s|s]]|]; cbn; constructor; apply near_us_round.
Qed.
Lemma read_back_exact {M} (j j' : job M) :
  read_back j j' →
  match jtype (ctx j) with
  | Normal => True
  | ScheduledAt t => (1000 | t)
  | Cron _ n _ cc => (1000 | n) ∧ match end_at cc with Some t => (1000 | t) | None => True end
  end →
  match jretry (ctx j) with
  | Some (Retry _ _ (Interval d)) | Some (Retry _ _ (ExponentialBackoff d)) => (1000 | d)
  | None => True
  end → j' = j.
Proof.
  assert (∀ t t', cut_us t t' → (1000 | t) → t' = t) as Hc.
  { intros t t' [[a ->] H] [b ->]. lia. }
  assert (∀ t t', near_us t t' → (1000 | t) → t' = t) as Hn.
  { intros t t' [[a ->] H] [b ->]. lia. }
  destruct j as [[id ty st re ca eq ra co cn rc] d], j' as [[id' ty' st' re' ca' eq' ra' co' cn' rc'] d'].
  unfold read_back. cbn. intros (-> & -> & Ht & -> & Hr & -> & -> & -> & -> & -> & ->) H1 H2.
  assert (ty' = ty) as ->.
  { destruct Ht as [|t t' H|e n n' r k m o o' Hn' Ho]; [done| |].
    - f_equal. by apply Hc.
    - destruct H1 as [H1 H3]. cbn in *. rewrite (Hc n n') by done.
      destruct o, o'; cbn in Ho; try done. by rewrite (Hc t t0). }
  assert (re' = re) as ->.
  { destruct Hr as [|n m a a' H|n m a a' H]; [done| |]; by rewrite (Hn a a'). }
  done.
Qed.

Section round_trip.
  Context {M : Type} `{SM : Serde M} {SO : SerdeOk M}.
  Lemma round_trip (j : job M) :
    ∃ v j', enc_job j = Some v ∧ dec_job v = Some j' ∧ read_back j j'.
  Proof.
    destruct (enc_job_total j) as [v Hv]. exists v, (norm_job j).
    split; [done|]. split; [by apply dec_enc_job|apply read_back_norm].
  Qed.
End round_trip.

Lemma is_done_iff {M} (j : job M) : is_done j = true ↔ done_status (jstatus (ctx j)).
Proof. unfold done_status. rewrite is_done_status. tauto. Qed.
Lemma is_done_not_running {M} (j : job M) : is_done j = true → is_running j = false.
Proof. unfold is_running, is_done. by destruct (jstatus (ctx j)). Qed.

Lemma filter_push (l : list string) id :
  filter (λ x, x ≠ id) (id :: l) = filter (λ x, x ≠ id) l.
Proof. rewrite filter_cons_False; [done|]. tauto. Qed.
Lemma filter_twice (l : list string) id :
  filter (λ x, x ≠ id) (filter (λ x, x ≠ id) l) = filter (λ x, x ≠ id) l.
Proof. rewrite list_filter_filter. apply list_filter_iff. tauto. Qed.

Section submit.
  Context {M : Type} `{SM : Serde M}.
  Context (prof : profile).
  Context (sched : string → option (time → option time)).
  Context (name : string).
  Context (clock : nat → time).
  Notation h := (mem_h clock).
  Notation qlist := (qlist name).
  Notation stored := (@stored M SM).
  Notation sys := (sys world M).
  Notation step := (sys_step prof sched name h).
  Notation update := (update_job prof sched name h).
  Notation only_id := (only_id name).

  (** *** The steps as equations *)
  Lemma step_enqueue (s : sys) j c :
    alive s = true →
    step s (EvEnqueue j c) =
    (Sys (do_run name clock (sw s) j c) (cfg s) (tasks s) true (runs s), RUnit (Ok tt)).
  Proof.
    intros Ha. unfold sys_step. rewrite Ha. unfold commit. cbn [ev_prog].
    rewrite run_bind, run_run_with_config. cbn. by rewrite app_nil_r.
  Qed.
  Lemma step_cancel (s : sys) id :
    alive s = true →
    step s (EvCancel id) =
    (Sys (do_cancel (M := M) name clock (sw s) id) (cfg s) (tasks s) true (runs s), RUnit (Ok tt)).
  Proof.
    intros Ha. unfold sys_step. rewrite Ha. unfold commit. cbn [ev_prog].
    rewrite run_bind, run_cancel. cbn. by rewrite app_nil_r.
  Qed.
  Lemma step_retry (s : sys) id :
    alive s = true →
    step s (EvRetry id) =
    (Sys (do_retry (M := M) name clock (sw s) id) (cfg s) (tasks s) true (runs s),
     RBool (Ok (retry_answer (M := M) (sw s) id))).
  Proof.
    intros Ha. unfold sys_step. rewrite Ha. unfold commit. cbn [ev_prog].
    rewrite run_bind, run_retry. cbn. by rewrite app_nil_r.
  Qed.
  Lemma step_get (s : sys) id :
    step s (EvGet id) = (s, RJob (if alive s then stored (sw s) id else None)).
  Proof.
    unfold sys_step. destruct (alive s) eqn:Ha; [|done]. unfold commit. cbn [ev_prog].
    unfold get_job. rewrite run_bind, run_get. cbn. rewrite app_nil_r. by destruct s; cbn in *; subst.
  Qed.
  Lemma update_eq (s : sys) id d c :
    alive s = true →
    update s id d c =
    match stored (sw s) id with
    | Some j => step s (EvEnqueue (Job (default (ctx j) c) d) new_re_run)
    | None => (s, RUnit (Ok tt))
    end.
  Proof.
    intros Ha. unfold update_job. rewrite step_get, Ha. by destruct (stored (sw s) id).
  Qed.

  (** *** A payload that is not read back *)
  Lemma submit_unserializable (s : sys) j c :
    alive s = true → stored (sw s) (jid j) = None → unreadable (data j) →
    let r := step s (EvEnqueue j c) in
    r.2 = RUnit (Ok tt) ∧ stored (sw r.1) (jid j) = None ∧
    qlist (sw r.1) Queued = jid j :: qlist (sw s) Queued.
  Proof.
    intros Ha Hs Hd. cbv zeta. rewrite step_enqueue by done. cbn [fst snd sw].
    unfold do_run. rewrite Hs. split; [done|]. split.
    - unfold do_enqueue, w_save. rewrite stored_send. unfold Spec.stored, w_put. cbn.
      rewrite mem_upsert_sget. unfold jid at 1 2. cbn. rewrite !String.eqb_refl. cbn.
      match goal with |- ?o = None => destruct o as [j'|] eqn:E end; [|done]. exfalso. revert E.
      destruct (enc_job _) as [v|] eqn:Ev; [|done]. cbn. intros E. by destruct (dec_enc_data _ _ _ Ev E).
    - unfold do_enqueue. rewrite qlist_save, qlist_tick, qlist_push. by rewrite bool_decide_true.
  Qed.

  Context {SO : SerdeOk M}.

  (** *** Submitting a new id *)
  Lemma submit_new (s : sys) j c :
    alive s = true → stored (sw s) (jid j) = None →
    let r := step s (EvEnqueue j c) in
    r.2 = RUnit (Ok tt) ∧
    (∃ j' t, stored (sw r.1) (jid j) = Some j' ∧
       read_back (Job (set_enqueue_at (set_jstatus (ctx j) Queued) t) (data j)) j' ∧
       (step r.1 (EvGet (jid j))).2 = RJob (Some j')) ∧
    (∀ st, qlist (sw r.1) st =
           if decide (st = Queued) then jid j :: qlist (sw s) Queued else qlist (sw s) st) ∧
    only_id (jid j) s r.1.
  Proof.
    intros Ha Hs. cbv zeta. rewrite step_enqueue by done. cbn [fst snd sw].
    assert (do_run name clock (sw s) j c = do_enqueue name clock (sw s) j) as ->.
    { unfold do_run. by rewrite Hs. }
    assert (∀ st, qlist (do_enqueue name clock (sw s) j) st =
           if decide (st = Queued) then jid j :: qlist (sw s) Queued else qlist (sw s) st) as HQ.
    { intros st. rewrite qlist_do_enqueue.
      destruct (decide (st = Queued)); [rewrite bool_decide_true by done|rewrite bool_decide_false by done]; done. }
    split; [done|]. split; [|split; [done|]].
    - eexists _, _. rewrite step_get. cbn [alive sw snd]. rewrite !stored_do_enqueue, bool_decide_true by done.
      split; [done|]. split; [|done]. apply (read_back_norm (Job _ _)).
    - split; [|split; [|cbn; done]].
      + intros k Hk. cbn [sw]. rewrite stored_do_enqueue. by rewrite bool_decide_false.
      + intros st. cbn [sw]. rewrite HQ. destruct (decide (st = Queued)) as [->|]; [|done]. apply filter_push.
  Qed.

  (** *** Submitting a done id *)
  Lemma submit_done (s : sys) j ex c :
    alive s = true → stored (sw s) (jid j) = Some ex → done_status (jstatus (ctx ex)) → re_run c = true →
    let r := step s (EvEnqueue j c) in
    r.2 = RUnit (Ok tt) ∧
    (∃ j' t, stored (sw r.1) (jid j) = Some j' ∧
       read_back (Job (set_enqueue_at (set_jstatus (ctx j) Queued) t) (data j)) j') ∧
    (∀ st, qlist (sw r.1) st =
           if decide (st = Queued) then jid j :: qlist (sw s) Queued else qlist (sw s) st) ∧
    only_id (jid j) s r.1.
  Proof.
    intros Ha Hs Hd Hc. apply is_done_iff in Hd. cbv zeta. rewrite step_enqueue by done. cbn [fst snd sw].
    set (w1 := if override_data c then w_put (sw s) j else sw s).
    assert (do_run name clock (sw s) j c = do_enqueue name clock w1 j) as ->.
    { unfold do_run. rewrite Hs, Hd, Hc, (is_done_not_running ex) by done. unfold w1. cbn.
      by destruct (override_data c). }
    assert (∀ st, qlist (do_enqueue name clock w1 j) st =
           if decide (st = Queued) then jid j :: qlist (sw s) Queued else qlist (sw s) st) as HQ.
    { intros st. rewrite qlist_do_enqueue.
      assert (∀ st, qlist w1 st = qlist (sw s) st) as Hw.
      { intros st'. unfold w1. destruct (override_data c); [apply qlist_put|done]. }
      destruct (decide (st = Queued)); [rewrite bool_decide_true by done|rewrite bool_decide_false by done];
        by rewrite Hw. }
    split; [done|]. split; [|split; [done|]].
    - eexists _, _. rewrite !stored_do_enqueue, bool_decide_true by done.
      split; [done|]. apply (read_back_norm (Job _ _)).
    - split; [|split; [|cbn; done]].
      + intros k Hk. cbn [sw]. rewrite stored_do_enqueue, bool_decide_false by done.
        unfold w1. destruct (override_data c); [|done]. rewrite stored_put. by rewrite bool_decide_false.
      + intros st. cbn [sw]. rewrite HQ. destruct (decide (st = Queued)) as [->|]; [|done]. apply filter_push.
  Qed.

  (** *** Submitting without a new execution *)
  Lemma submit_no_run (s : sys) j ex c :
    alive s = true → stored (sw s) (jid j) = Some ex →
    re_run c = false ∨ ¬ done_status (jstatus (ctx ex)) →
    let r := step s (EvEnqueue j c) in
    r.2 = RUnit (Ok tt) ∧
    (∃ j', stored (sw r.1) (jid j) = Some j' ∧
      if override_data c && negb (is_running ex) then read_back j j' else j' = ex) ∧
    (∀ st, qlist (sw r.1) st = qlist (sw s) st) ∧
    only_id (jid j) s r.1 ∧ (is_running ex = true → r.1 = s).
  Proof.
    intros Ha Hs Hr. cbv zeta. rewrite step_enqueue by done. cbn [fst snd sw].
    assert (re_run c && is_done ex = false) as E.
    { destruct Hr as [->|Hr]; [done|]. rewrite <-is_done_iff in Hr. destruct (is_done ex), (re_run c); tauto. }
    assert (do_run name clock (sw s) j c =
      if override_data c && negb (is_running ex) then w_put (sw s) j else sw s) as ->.
    { unfold do_run. by rewrite Hs, E. }
    split; [done|]. split; [|split; [|split]].
    - destruct (override_data c && negb (is_running ex)).
      + eexists. rewrite stored_put, bool_decide_true by done. split; [done|]. apply read_back_norm.
      + eauto.
    - intros st. clear E. destruct (_ && _); [apply qlist_put|done].
    - split; [|split; [|cbn; done]].
      + intros k Hk. cbn [sw]. clear E. destruct (_ && _); [|done]. rewrite stored_put. by rewrite bool_decide_false.
      + intros st. cbn [sw]. clear E. destruct (_ && _); [by rewrite qlist_put|done].
    - intros Hrun. rewrite Hrun, andb_false_r. destruct s; cbn in *; by subst.
  Qed.

  (** *** Cancelling *)
  Lemma cancel_queued (s : sys) id j :
    alive s = true → stored (sw s) id = Some j → jid j = id → jstatus (ctx j) = Queued →
    let r := step s (EvCancel id) in
    r.2 = RUnit (Ok tt) ∧
    (∃ j' t, stored (sw r.1) id = Some j' ∧
      read_back (Job (set_cancel_at (set_jstatus (ctx j) Canceled) t) (data j)) j') ∧
    (∀ st, qlist (sw r.1) st =
           if decide (st = Queued) then filter (λ x, x ≠ id) (qlist (sw s) Queued) else qlist (sw s) st) ∧
    only_id id s r.1.
  Proof.
    intros Ha Hs Hid Hq. apply is_queued_status in Hq. cbv zeta. rewrite step_cancel by done. cbn [fst snd sw].
    set (w := w_rem name (w_save (w_tick (sw s)) (can j (now_ms clock (sw s)))) Queued id).
    assert (do_cancel (M := M) name clock (sw s) id = w) as ->.
    { unfold do_cancel. by rewrite Hs, Hq. }
    assert (∀ k, stored w k = if bool_decide (k = id)
      then Some (norm_job (can j (now_ms clock (sw s)))) else stored (sw s) k) as HS.
    { intros k. unfold w. rewrite stored_rem, stored_save. change (jid (can j _)) with (jid j). by rewrite Hid. }
    assert (∀ st, qlist w st =
      if decide (st = Queued) then filter (λ x, x ≠ id) (qlist (sw s) Queued) else qlist (sw s) st) as HQ.
    { intros st. unfold w. rewrite qlist_rem.
      destruct (decide (st = Queued)); [rewrite bool_decide_true by done|rewrite bool_decide_false by done];
        by rewrite qlist_save. }
    split; [done|]. split; [|split; [done|]].
    - eexists _, _. rewrite HS, bool_decide_true by done. split; [done|]. apply (read_back_norm (Job _ _)).
    - split; [|split; [|cbn; done]].
      + intros k Hk. cbn [sw]. by rewrite HS, bool_decide_false.
      + intros st. cbn [sw]. rewrite HQ. destruct (decide (st = Queued)) as [->|]; [|done]. apply filter_twice.
  Qed.
  Lemma cancel_other (s : sys) id :
    (∀ j, stored (sw s) id = Some j → jstatus (ctx j) ≠ Queued) →
    (step s (EvCancel id)).1 = s ∧ (alive s = true → (step s (EvCancel id)).2 = RUnit (Ok tt)).
  Proof.
    intros Hn. destruct (alive s) eqn:Ha.
    - rewrite step_cancel by done. split; [|done].
      assert (do_cancel (M := M) name clock (sw s) id = sw s) as E.
      { unfold do_cancel. destruct (stored (sw s) id) as [j|] eqn:Hs; [|done].
        destruct (is_queued j) eqn:Hq; [|done]. apply is_queued_status in Hq. by destruct (Hn j). }
      cbn. rewrite E. destruct s; cbn in *; by subst.
    - unfold sys_step. rewrite Ha. done.
  Qed.

  (** *** Retrying *)
  Lemma retry_done (s : sys) id j :
    alive s = true → stored (sw s) id = Some j → jid j = id → done_status (jstatus (ctx j)) →
    let r := step s (EvRetry id) in
    r.2 = RBool (Ok true) ∧
    (∃ j' t, stored (sw r.1) id = Some j' ∧
      read_back (Job (set_enqueue_at (set_jstatus (ctx j) Queued) t) (data j)) j') ∧
    (∀ st, qlist (sw r.1) st =
           if decide (st = Queued) then id :: qlist (sw s) Queued
           else if decide (st = jstatus (ctx j)) then filter (λ x, x ≠ id) (qlist (sw s) st)
           else qlist (sw s) st) ∧
    only_id id s r.1.
  Proof.
    intros Ha Hs Hid Hd. pose proof Hd as Hd'. apply is_done_iff in Hd. cbv zeta. rewrite step_retry by done.
    cbn [fst snd sw]. unfold retry_answer. rewrite Hs, Hd.
    assert (do_retry (M := M) name clock (sw s) id = do_re_enqueue name clock (sw s) j) as ->.
    { unfold do_retry. by rewrite Hs, Hd. }
    assert (jstatus (ctx j) ≠ Queued) as Hnq by (destruct Hd' as [?|[?|?]]; congruence).
    assert (∀ st, qlist (do_re_enqueue name clock (sw s) j) st =
           if decide (st = Queued) then id :: qlist (sw s) Queued
           else if decide (st = jstatus (ctx j)) then filter (λ x, x ≠ id) (qlist (sw s) st)
           else qlist (sw s) st) as HQ.
    { intros st. unfold do_re_enqueue. rewrite qlist_push, !qlist_save, !qlist_tick, !qlist_rem, Hid.
      destruct (decide (st = Queued)) as [->|H1].
      - rewrite bool_decide_true by done. rewrite bool_decide_false by congruence. done.
      - rewrite (bool_decide_false (st = Queued)) by done.
        destruct (decide (st = jstatus (ctx j))) as [->|H2].
        + by rewrite bool_decide_true by done.
        + by rewrite bool_decide_false by done. }
    split; [done|]. split; [|split; [done|]].
    - eexists _, _. rewrite stored_do_re_enqueue, Hid, bool_decide_true by done. split; [done|].
      apply (read_back_norm (Job _ _)).
    - split; [|split; [|cbn; done]].
      + intros k Hk. cbn [sw]. by rewrite stored_do_re_enqueue, Hid, bool_decide_false.
      + intros st. cbn [sw]. rewrite HQ. destruct (decide (st = Queued)) as [->|]; [apply filter_push|].
        destruct (decide (st = jstatus (ctx j))); [apply filter_twice|done].
  Qed.
  Lemma retry_other (s : sys) id :
    (∀ j, stored (sw s) id = Some j → ¬ done_status (jstatus (ctx j))) →
    (step s (EvRetry id)).1 = s ∧ (alive s = true → (step s (EvRetry id)).2 = RBool (Ok false)).
  Proof.
    intros Hn. destruct (alive s) eqn:Ha.
    - rewrite step_retry by done.
      assert (do_retry (M := M) name clock (sw s) id = sw s ∧ retry_answer (M := M) (sw s) id = false) as [E1 E2].
      { unfold do_retry, retry_answer. destruct (stored (sw s) id) as [j|] eqn:Hs; [|done].
        destruct (is_done j) eqn:Hq; [|done]. apply is_done_iff in Hq. by destruct (Hn j). }
      cbn. rewrite E1, E2. split; [|done]. destruct s; cbn in *; by subst.
    - unfold sys_step. rewrite Ha. done.
  Qed.

  (** *** Unknown ids *)
  Lemma unknown_id (s : sys) id d c :
    stored (sw s) id = None →
    (step s (EvCancel id)).1 = s ∧ (step s (EvRetry id)).1 = s ∧ (update s id d c).1 = s.
  Proof.
    intros Hs. split; [|split].
    - apply cancel_other. by rewrite Hs.
    - apply retry_other. by rewrite Hs.
    - unfold update_job. rewrite step_get. destruct (alive s); [by rewrite Hs|done].
  Qed.
End submit.
