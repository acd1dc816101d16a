(** Endless executions whose waiting lists fit one batch. *)
From Verif Require Import SpecShort SpecLive JsonFacts BackendFacts WorldFacts MicroFacts LifeFacts HistFacts SubmitFacts LifeProps ListFacts ApiFacts PickFacts LiveFacts ShortFacts.

Section live.
  Context {M : Type} `{SM : Serde M} {SO : SerdeOk M}.
  Context (prof : profile).
  Context (sched : string → option (time → option time)).
  Context (name : string).
  Context (clock : nat → time).
  Notation qlist := (qlist name).
  Notation stored := (@stored M SM).
  Notation at_ := (at_ name).
  Context (ev : nat → event M).
  Notation s n := (moment prof sched name clock ev n).
  Context (Hh : healthy prof sched name clock ev).
  Context (Hticks : ticking ev).
  Context (Hpolls : polling prof sched name clock ev).

  Lemma free_offered (st : sys world M) es :
    (free_ticks prof sched name clock st es <= offered prof sched name clock st es)%nat.
  Proof.
    revert st. induction es as [|e es IH]; intros st; [done|]. cbn [free_ticks offered].
    specialize (IH (sys_step prof sched name (mem_h clock) st e).1). destruct e; lia.
  Qed.

  Lemma short_reads n0 id j K :
    at_ (s n0) id (PQueued j) → (∀ n, (n0 <= n)%nat → ¬ submits id (ev n) ∧ ev n ≠ EvCancel id) →
    (∀ n, (n0 <= n)%nat → ev n = EvTick → (length (qlist (sw (s n)) Queued) <= 20)%nat) →
    (∃ k, (n0 <= k)%nat ∧ at_ (s k) id (PQueued j) ∧ id ∈ qlist (sw (s (S k))) Running) ∨
    ∃ d, (K <= reads (sw (s (n0 + d)%nat)))%nat ∧ at_ (s (n0 + d)%nat) id (PQueued j).
  Proof.
    intros Hp Hd Hlen. induction K as [|K [IH|(d&HK&IH)]].
    - right. exists 0%nat. split; [lia|]. by rewrite Nat.add_0_r.
    - by left.
    - destruct (opens_again prof sched name clock ev Hh Hticks Hpolls (n0 + d)) as (m & Hm & Ho).
      destruct (waits prof sched name clock ev Hh n0 id j (m - n0) Hp Hd) as [Hw|(k&Hk&Hw)]; [|left; exists k; split; [lia|done]].
      replace (n0 + (m - n0))%nat with m in Hw by lia.
      destruct (waits prof sched name clock ev Hh n0 id j (S m - n0) Hp Hd) as [Hw'|(k&Hk&Hw')]; [|left; exists k; split; [lia|done]].
      right. exists (S m - n0)%nat. replace (n0 + (S m - n0))%nat with (S m) in * by lia. split; [|done].
      assert (reads (sw (s m)) < reads (sw (s (S m))))%nat.
      { apply (opens_reads prof sched name clock ev Hh m id j); try done.
        destruct Ho as [Ho _]. specialize (Hlen m ltac:(lia) Ho). unfold i32_max. lia. }
      pose proof (reads_le prof sched name clock ev (n0 + d) m Hm). lia.
  Qed.

  Lemma short_fair n0 id j :
    id ∈ qlist (sw (s n0)) Queued → stored (sw (s n0)) id = Some j →
    (∃ k0, ∀ k, (k0 <= k)%nat → due j (clock k)) →
    (∀ n, (n0 <= n)%nat → ¬ submits id (ev n) ∧ ev n ≠ EvCancel id) →
    (∀ n, (n0 <= n)%nat → ev n = EvTick → (length (qlist (sw (s n)) Queued) <= 20)%nat) →
    ∃ n1 n2, (n0 <= n1 <= n2)%nat ∧
      (length (runs_of id (s n0)) < length (runs_of id (s n1)))%nat ∧ tasks_of id (s n2) = [].
  Proof.
    intros Hin Hs [k0 Hdue] Hdist Hlen.
    destruct (all_at_stored name (s n0) id (at_n prof sched name clock ev Hh n0) Hin) as (j0 & Hs0 & Hp).
    rewrite Hs0 in Hs. injection Hs as ->.
    assert (∃ k, (n0 <= k)%nat ∧ at_ (s k) id (PQueued j) ∧ id ∈ qlist (sw (s (S k))) Running) as (k & Hk & Hq & Hr).
    2: { destruct (from_running prof sched name clock ev Hh Hpolls k id j Hq Hr) as (n1 & n2 & Hn & Hr1 & Hr2).
         pose proof (runs_of_le prof sched name clock ev Hh id n0 k ltac:(lia)). exists n1, n2. split; [lia|]. split; [lia|done]. }
    destruct (short_reads n0 id j k0 Hp Hdist Hlen) as [?|(d&Hk&Hq)]; [done|].
    set (m := (n0 + d)%nat) in *.
    destruct (many_opens prof sched name clock ev Hh Hticks Hpolls m (S (behind id (qlist (sw (s m)) Queued)))) as [d' Hd'].
    pose proof (free_offered (s m) (map ev (seq m d'))) as Hfo.
    assert (ok_hist prof sched name clock (s m) (map ev (seq m d'))) as Hok.
    { pose proof (ok_n prof sched name clock ev Hh (m + d')) as Ho. rewrite seq_app, map_app, app_comm_cons in Ho.
      apply ok_hist_app in Ho as [_ Ho]. exact Ho. }
    assert (Forall (λ e, ¬ disturbs id e) (map ev (seq m d'))) as HE.
    { apply list.Forall_forall. intros e He. apply elem_of_list_fmap in He as (k & -> & Hkk).
      apply elem_of_seq in Hkk. destruct (Hdist k ltac:(lia)) as [H1 H2]. intros [?|?]; done. }
    assert (∀ n d, (n0 <= n)%nat → short_lists prof sched name clock (s n) (map ev (seq n d))) as Hshort.
    { intros n d0. revert n. induction d0 as [|d0 IH]; intros n Hn; [done|]. cbn [seq map short_lists]. split.
      - intros [He|He]; [by apply Hlen|]. pose proof (calm_n prof sched name clock ev Hh n) as Hc. by rewrite He in Hc.
      - rewrite <-(s_S prof sched name clock ev). apply IH. lia. }
    destruct (short_progress prof sched name clock (map ev (seq m d')) (s m) id j
      (at_n prof sched name clock ev Hh m) Hok Hq) as [(es1 & es2 & E & Hr)|[H1 _]]; try done.
    { intros k Hkk. apply Hdue. lia. }
    { apply Hshort. lia. }
    2: lia.
    assert (es1 = map ev (seq m (length es1))) as Ees.
    { assert (take (length es1) (map ev (seq m d')) = es1) as <- by (by rewrite E, take_app).
      assert (length es1 <= d')%nat. { apply (f_equal length) in E. rewrite map_length, seq_length, app_length in E. lia. }
      replace d' with (length es1 + (d' - length es1))%nat by lia. rewrite seq_app, map_app.
      rewrite take_app_alt by (by rewrite map_length, seq_length). by rewrite map_length, seq_length. }
    rewrite Ees, <-s_add in Hr.
    destruct (waits prof sched name clock ev Hh m id j (length es1) Hq) as [Hq'|(k&Hkk&Hq')].
    - intros n Hn. apply Hdist. lia.
    - exfalso. destruct Hq' as [(_ & _ & Hc & _) _]. apply cnt_pos in Hr. lia.
    - exists k. split; [lia|done].
  Qed.
End live.
