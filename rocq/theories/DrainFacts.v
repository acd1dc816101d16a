(** A queue that gets no more work comes to rest. *)
From Verif Require Import Spec JsonFacts BackendFacts WorldFacts MicroFacts LifeFacts HistFacts SubmitFacts LifeProps
  PickFacts PluginFacts SpecLive LiveFacts SpecDrain.
Open Scope Z_scope.

Section sums.
  Lemma sum_one x (K : list string) : NoDup K → x ∈ K → sum_list_with (λ id, if bool_decide (x = id) then 1 else 0)%nat K = 1%nat.
  Proof.
    intros Hn Hx. induction K as [|k K IH]; [by apply elem_of_nil in Hx|]. apply list.NoDup_cons in Hn as [Hk Hn]. cbn.
    apply elem_of_cons in Hx as [->|Hx].
    - rewrite bool_decide_true by done. assert (sum_list_with (λ id, if bool_decide (k = id) then 1 else 0)%nat K = 0%nat) as ->; [|done].
      clear -Hk. induction K as [|y K IH]; [done|]. apply not_elem_of_cons in Hk as [H1 H2]. cbn. rewrite bool_decide_false by done. by apply IH.
    - rewrite bool_decide_false; [by apply IH|]. by intros ->.
  Qed.
  Lemma sum_add {A} (f g : A → nat) K : sum_list_with (λ x, f x + g x)%nat K = (sum_list_with f K + sum_list_with g K)%nat.
  Proof. induction K as [|k K IH]; [done|]. cbn. rewrite IH. lia. Qed.
  Lemma sum_le {A} (f g : A → nat) K : (∀ x, x ∈ K → (f x <= g x)%nat) → (sum_list_with f K <= sum_list_with g K)%nat.
  Proof.
    induction K as [|k K IH]; intros H; [done|]. cbn. pose proof (H k ltac:(left)).
    assert (sum_list_with f K <= sum_list_with g K)%nat by (apply IH; intros; apply H; by right). lia.
  Qed.
  Lemma sum_cnt (K l : list string) : NoDup K → (∀ x, x ∈ l → x ∈ K) → sum_list_with (λ id, cnt id l) K = length l.
  Proof.
    intros Hn Hl. induction l as [|x l IH].
    - clear. induction K as [|k K IH]; [done|]. exact IH.
    - transitivity (sum_list_with (λ id, (if bool_decide (x = id) then 1 else 0) + cnt id l)%nat K).
      { clear. induction K as [|k K IH]; [done|]. cbn [sum_list_with]. by rewrite IH, cnt_cons. }
      rewrite sum_add, sum_one, IH; [done| |done|].
      + intros y Hy. apply Hl. by right.
      + apply Hl. left.
  Qed.
End sums.

Section facts.
  Context {M : Type} `{SM : Serde M} {SO : SerdeOk M}.
  Context (prof : profile).
  Context (sched : string → option (time → option time)).
  Context (name : string).
  Context (clock : nat → time).
  Notation h := (mem_h clock).
  Notation qlist := (qlist name).
  Notation stored := (@stored M SM).
  Notation sys := (sys world M).
  Notation step := (sys_step prof sched name h).
  Notation all_at := (all_at name).
  Notation at_ := (at_ name).
  Notation pstate := (@pstate M).

  (** *** Jobs *)
  Lemma norm_left (j : job M) : tries_left (norm_job j) = tries_left j.
  Proof. unfold tries_left. cbn. by destruct (jretry (ctx j)). Qed.
  Lemma norm_ends (j : job M) : ends_some_day j → ends_some_day (norm_job j).
  Proof.
    intros [H1 H2]. split.
    - intros x slot n cc. cbn. destruct (jtype (ctx j)) as [|t|e s0 n0 c0] eqn:E; try done. by destruct (H1 e s0 n0 c0).
    - intros r. cbn. destruct (jretry (ctx j)) as [r0|]; [|done]. intros [= <-]. exact (H2 r0 eq_refl).
  Qed.
  Definition alike (j j' : job M) : Prop := jtype (ctx j') = jtype (ctx j) ∧ jretry (ctx j') = jretry (ctx j).
  Lemma alike_left (j j' : job M) : alike j j' → tries_left j' = tries_left j.
  Proof. intros [_ H]. unfold tries_left. by rewrite H. Qed.
  Lemma alike_ends (j j' : job M) : alike j j' → ends_some_day j → ends_some_day j'.
  Proof. intros [H1 H2] [H3 H4]. split; [by rewrite H1|by rewrite H2]. Qed.
  Lemma finish_some_day k (j nj : job M) b k1 :
    ends_some_day j → finish_of prof sched clock k j b ≠ (k1, VRequeue nj).
  Proof.
    intros [H _]. unfold finish_of, tick_of. destruct (jtype (ctx j)) as [|t|e s0 n0 c0] eqn:E; cbn.
    1,2: by destruct b.
    by destruct (H e s0 n0 c0).
  Qed.
  Lemma judge_some_day k (j nj : job M) u k1 :
    ends_some_day j → (∀ r t, ur_retry u ≠ CustomRetryAt r (Some t)) →
    judge prof sched clock k j u = (k1, VRequeue nj) →
    ends_some_day nj ∧ tries_left j = S (tries_left nj).
  Proof.
    intros Hj Hu. unfold judge. destruct (jretry (ctx j)) as [r|] eqn:Er; [|by intros ?%finish_some_day].
    destruct Hj as [Hj1 Hj2]. destruct (Hj2 r Er) as (Hr1 & m & Em & Hm).
    destruct (retry_of prof clock k r (ur_retry u)) as [k' o] eqn:E. unfold retry_of in E.
    destruct (ur_retry u) as [failed|r' o'] eqn:Eu.
    - destruct (failed && should_retry r) eqn:Es.
      + apply andb_true_iff in Es as [_ Es]. unfold should_retry in Es. rewrite Em in Es. apply Z.ltb_lt in Es.
        assert (i32_norm prof (retried_times r + 1) = Some (retried_times r + 1)) as En.
        { unfold i32_norm, in_i32. by rewrite !(proj2 (Z.leb_le _ _)) by lia. }
        unfold retry_retry_at in E. rewrite En in E. cbn in E.
        assert (∀ r' t, o = Some (r', Some t) → r' = Retry (retried_times r + 1) (Some m) (strat r)) as Ho.
        { intros r' t ->. destruct (strat r); cbn in E.
          - destruct (dt_add _ _); [|done]. injection E as _ <- _. by rewrite Em.
          - destruct (pow2_i32 _ _); [|done]. cbn in E. destruct (dt_add _ _); [|done]. injection E as _ <- _. by rewrite Em. }
        destruct o as [[r' [t|]]|].
        * intros [= <- <-]. rewrite (Ho r' t eq_refl). split.
          -- split; [by intros|]. intros r0 [= <-]. cbn. split; [lia|]. by exists m.
          -- unfold tries_left. rewrite Er, Em. cbn. lia.
        * injection E as _ E. destruct (strat r); cbn in E; [destruct (dt_add _ _); [|done]|
            destruct (pow2_i32 _ _); [|done]; cbn in E; destruct (dt_add _ _); [|done]]; by injection E.
        * by intros [= <-].
      + injection E as <- <-. intros H. apply finish_some_day in H; [done|]. split; [done|].
        intros r0 [= <-]. eauto.
    - injection E as <- <-. destruct o' as [t|]; [by destruct (Hu r' t)|].
      intros H. exfalso. revert H. unfold finish_of, tick_of. cbn. destruct (jtype (ctx j)) as [|t|e s0 n0 c0] eqn:Et; cbn.
      1,2: by destruct (ur_failed u).
      by destruct (Hj1 e s0 n0 c0).
  Qed.

  (** *** One id *)
  Definition fine (p : pstate) : Prop :=
    match p with
    | PQueued j => ends_some_day j
    | PTask t => ends_some_day (t_orig t) ∧ alike (t_orig t) (t_job t)
    | PDone j => jstatus (ctx j) = Finished ∨ jstatus (ctx j) = Failed
    | POrphan _ => True
    | _ => False
    end.
  Definition pot (p : pstate) : nat :=
    match p with
    | PQueued j => S (tries_left j)
    | PTask t => match t_phase t with
                 | Spawned | Hooked => S (tries_left (t_orig t))
                 | _ => tries_left (t_orig t)
                 end
    | _ => 0
    end.
  Definition kap (p : pstate) : nat :=
    match p with
    | PQueued j => tries_left j
    | PTask t => tries_left (t_orig t)
    | _ => 0
    end.
  Definition qs (p : pstate) : nat := match p with PQueued _ => 1 | _ => 0 end.
  Lemma pstep_fine id (e : event M) k p new k' p' :
    no_new_work e → pstep prof sched clock id e k p new k' p' → fine p →
    fine p' ∧ (pot p' + length new <= pot p)%nat ∧ (qs p' - qs p + kap p' <= kap p)%nat.
  Proof.
    intros He H Hf. destruct H; try (by subst e); cbn [fine pot kap qs length] in *.
    - split; [done|]. split; lia.
    - split; [by split|]. change (tries_left (t_orig (spawn (prc j (ms_of (clock (S k))))))) with (tries_left j).
      change (t_phase (spawn (prc j (ms_of (clock (S k)))))) with Spawned. cbn. split; lia.
    - destruct Hf as [H1 H2]. rewrite H0. split; [done|]. split; cbn; lia.
    - destruct Hf as [H1 H2]. rewrite H0. split; [done|]. split; cbn; lia.
    - destruct Hf as [H1 H2]. rewrite H0. split; [done|]. split; cbn; lia.
    - destruct Hf as [Hf1 Hf2]. rewrite H0. subst e.
      destruct (judge_some_day k (t_job t) nj u k1 (alike_ends _ _ Hf2 Hf1) He H1) as [Hn Hl].
      rewrite (alike_left _ _ Hf2) in Hl. rewrite norm_left.
      change (tries_left (enq nj (ms_of (clock k1)))) with (tries_left nj).
      split; [by apply norm_ends|]. split; lia.
    - split; [by right|]. split; lia.
    - split; [by left|]. split; lia.
    - split; [done|]. split; lia.
    - split; [done|]. split; lia.
  Qed.
  Lemma psteps_fine id (e : event M) k p new k' p' :
    no_new_work e → psteps prof sched clock id e k p new k' p' → fine p →
    fine p' ∧ (pot p' + length new <= pot p)%nat ∧ (qs p' - qs p + kap p' <= kap p)%nat.
  Proof.
    intros He H. induction H as [|k p n1 k1 p1 n2 k2 p2 H1 H2 IH]; intros Hf; [cbn; split; [done|split; lia]|].
    destruct (pstep_fine _ _ _ _ _ _ _ He H1 Hf) as (G1 & G2 & G3). destruct (IH G1) as (I1 & I2 & I3).
    split; [done|]. rewrite app_length. split; [lia|]. destruct p, p1, p2; cbn in *; lia.
  Qed.
  Definition still (p : pstate) : Prop := match p with PQueued _ | PTask _ => False | _ => True end.
  Lemma psteps_still id (e : event M) k p new k' p' :
    no_new_work e → psteps prof sched clock id e k p new k' p' → still p → p' = p ∧ new = [].
  Proof.
    intros He H. induction H as [|k p n1 k1 p1 n2 k2 p2 H1 H2 IH]; intros Hf; [done|].
    assert (p1 = p ∧ n1 = []) as [-> ->].
    { destruct H1; try (by subst e); try done. all: destruct H1 as [->|(? & -> & _)]; done. }
    by destruct (IH Hf) as [-> ->].
  Qed.

  (** *** Endless executions *)
  Section run.
    Context (ev : nat → event M).
    Notation s n := (moment prof sched name clock ev n).
    Notation arrivals := (arrivals prof sched name clock).
    Context (Hh : healthy prof sched name clock ev).
    Context (Hticks : ticking ev).
    Context (Hpolls : polling prof sched name clock ev).
    Context (n0 : nat).
    Context (Hquiet : ∀ n, (n0 <= n)%nat → no_new_work (ev n)).
    Context (Hends : ∀ id j, id ∈ pending name (s n0) → stored (sw (s n0)) id = Some j → ends_some_day j).
    Context (Hdue : ∀ n id j, (n0 <= n)%nat → id ∈ qlist (sw (s n)) Queued → stored (sw (s n)) id = Some j →
      ∃ k0, ∀ k, (k0 <= k)%nat → due j (clock k)).
    Context (Hwork : Z.of_nat (work_left name (s n0)) <= i32_max).
    Notation K := (pending name (s n0)).
    Notation at_n := (LiveFacts.at_n prof sched name clock ev Hh).
    Notation s_S := (LiveFacts.s_S prof sched name clock ev).

    Lemma in_pending st id p : at_ st id p → id ∈ pending name st ↔ match p with PQueued _ | PTask _ | POrphan _ => True | _ => False end.
    Proof.
      intros Hp. unfold pending. rewrite elem_of_app, <-!cnt_pos.
      destruct p; cbn in Hp; destruct_and?; split; intros; try done; lia.
    Qed.
    Lemma nodup_pending st : all_at st → NoDup (pending name st).
    Proof.
      intros Ha. apply cnt_nodup. intros id. destruct (Ha id) as [p Hp]. unfold pending. rewrite cnt_app.
      destruct p; cbn in Hp; destruct_and?; lia.
    Qed.
    Lemma at_pending st id p : at_ st id p → id ∈ pending name st → (∀ j, stored (sw st) id = Some j → ends_some_day j) →
      fine p ∧ (pot p <= executions_left st id)%nat ∧ (qs p + kap p <= executions_left st id)%nat.
    Proof.
      intros Hp Hid He. pose proof (proj1 (in_pending _ _ _ Hp) Hid) as Hk. unfold executions_left.
      destruct p as [|j|j|t|j|j]; try done; cbn in Hp; destruct Hp as ((Hs & _) & _ & Hp); fold (stored (sw st) id); rewrite Hs.
      - split; [by apply He|]. cbn. lia.
      - split; [split; [by apply He|]|].
        + destruct Hp as (_ & _ & H1). destruct (t_phase t); [rewrite H1; done..|]. by destruct H1 as [d ->].
        + cbn. destruct (t_phase t); lia.
      - split; [done|]. cbn. lia.
    Qed.
    Lemma at_K id : id ∈ K → ∃ p, at_ (s n0) id p ∧ fine p ∧ (pot p <= executions_left (s n0) id)%nat ∧
      (qs p + kap p <= executions_left (s n0) id)%nat.
    Proof.
      intros Hid. destruct (at_n n0 id) as [p Hp]. exists p. split; [done|].
      apply at_pending; [done|done|]. intros j. by apply Hends.
    Qed.
    Lemma at_other id : id ∉ K → ∃ p, at_ (s n0) id p ∧ still p.
    Proof.
      intros Hid. destruct (at_n n0 id) as [p Hp]. exists p. split; [done|].
      destruct p; try done; destruct Hid; by apply (in_pending _ _ _ Hp).
    Qed.
    Lemma step_at n id p : (n0 <= n)%nat → at_ (s n) id p →
      ∃ p' new k k', at_ (s (S n)) id p' ∧ psteps prof sched clock id (ev n) k p new k' p' ∧
        runs_of id (s (S n)) = runs_of id (s n) ++ new.
    Proof.
      intros Hn Hp. rewrite s_S.
      assert (ok_event (s n) (ev n)) as He.
      { specialize (Hquiet n Hn). destruct (ev n); done. }
      destruct (life_step prof sched name clock (s n) (ev n) He (at_n n)) as [_ H].
      destruct (H id p Hp) as (p' & new & H1 & H2 & H3). eauto 10.
    Qed.
    Lemma fine_le n d id p : (n0 <= n)%nat → at_ (s n) id p → fine p →
      ∃ p', at_ (s (n + d)) id p' ∧ fine p' ∧
        (pot p' + length (runs_of id (s (n + d))) <= pot p + length (runs_of id (s n)))%nat ∧
        (qs p' + kap p' <= qs p + kap p)%nat.
    Proof.
      intros Hn Hp Hf. induction d as [|d (p1 & H1 & H2 & H3 & H4)].
      - rewrite Nat.add_0_r. exists p. split; [done|]. split; [done|]. lia.
      - rewrite Nat.add_succ_r. destruct (step_at (n + d) id p1 ltac:(lia) H1) as (p' & new & k & k' & G1 & G2 & G3).
        destruct (psteps_fine _ _ _ _ _ _ _ (Hquiet (n + d)%nat ltac:(lia)) G2 H2) as (I1 & I2 & I3).
        exists p'. split; [done|]. split; [done|]. rewrite G3, app_length. lia.
    Qed.
    Lemma still_le n d id p : (n0 <= n)%nat → at_ (s n) id p → still p →
      at_ (s (n + d)) id p ∧ runs_of id (s (n + d)) = runs_of id (s n).
    Proof.
      intros Hn Hp Hf. induction d as [|d [H1 H2]].
      - rewrite Nat.add_0_r. done.
      - rewrite Nat.add_succ_r. destruct (step_at (n + d) id p ltac:(lia) H1) as (p' & new & k & k' & G1 & G2 & G3).
        destruct (psteps_still _ _ _ _ _ _ _ (Hquiet (n + d)%nat ltac:(lia)) G2 Hf) as [-> ->].
        split; [done|]. by rewrite G3, app_nil_r.
    Qed.

    (** *** The number of arrivals *)
    Definition kapS (st : sys) (id : string) : nat :=
      match tasks_of id st with
      | t :: _ => tries_left (t_orig t)
      | [] => match stored (sw st) id with
              | Some j => if decide (id ∈ qlist (sw st) Queued) then tries_left j else 0
              | None => 0 end
      end.
    Lemma kapS_at st id p : at_ st id p → kapS st id = kap p ∧ cnt id (qlist (sw st) Queued) = qs p.
    Proof.
      intros Hp. unfold kapS.
      assert (∃ o q r ts, stored (sw st) id = o ∧ cnt id (qlist (sw st) Queued) = q ∧ cnt id (qlist (sw st) Running) = r ∧
        tasks_of id st = ts ∧
        match p with
        | PAbsent => o = None ∧ q = 0%nat ∧ ts = []
        | PQueued j => o = Some j ∧ q = 1%nat ∧ ts = []
        | PTask t => o = Some (t_orig t) ∧ q = 0%nat ∧ ts = [t]
        | PLimbo j | POrphan j | PDone j => o = Some j ∧ q = 0%nat ∧ ts = []
        end) as (o & q & r & ts & E1 & E2 & E3 & E4 & E5).
      { do 4 eexists. do 4 (split; [reflexivity|]). destruct p; cbn in Hp; destruct_and?; done. }
      rewrite E1, E2, E4. destruct p; destruct E5 as (-> & -> & ->); cbn; try done.
      all: case_decide as Hd; [|try done]; try done; exfalso; first [apply cnt_pos in Hd; lia|apply Hd, cnt_pos; lia].
    Qed.
    Lemma waiting_K n id : (n0 <= n)%nat → id ∈ qlist (sw (s n)) Queued → id ∈ K.
    Proof.
      intros Hn Hid. destruct (decide (id ∈ K)) as [|Hk]; [done|]. exfalso.
      destruct (at_other id Hk) as (p & Hp & Hs). destruct (still_le n0 (n - n0) id p ltac:(lia) Hp Hs) as [H1 _].
      replace (n0 + (n - n0))%nat with n in H1 by lia. apply kapS_at in H1 as [_ H1]. apply cnt_pos in Hid. by destruct p; cbn in *; lia.
    Qed.
    Notation kaps n := (sum_list_with (kapS (s n)) K).
    Lemma length_sum n : (n0 <= n)%nat → length (qlist (sw (s n)) Queued) = sum_list_with (λ id, cnt id (qlist (sw (s n)) Queued)) K.
    Proof. intros Hn. symmetry. apply sum_cnt; [apply nodup_pending, at_n|]. intros x. by apply waiting_K. Qed.
    Lemma grow n : (n0 <= n)%nat →
      (kaps (S n) <= kaps n)%nat ∧
      (length (qlist (sw (s (S n))) Queued) + kaps (S n) <= length (qlist (sw (s n)) Queued) + kaps n)%nat.
    Proof.
      intros Hn.
      assert (∀ id, id ∈ K → (kapS (s (S n)) id <= kapS (s n) id)%nat ∧
        (cnt id (qlist (sw (s (S n))) Queued) + kapS (s (S n)) id <= cnt id (qlist (sw (s n)) Queued) + kapS (s n) id)%nat) as H.
      { intros id Hid. destruct (at_K id Hid) as (p0 & Hp0 & Hf0 & _).
        destruct (fine_le n0 (n - n0) id p0 ltac:(lia) Hp0 Hf0) as (p & Hp & Hf & _).
        replace (n0 + (n - n0))%nat with n in Hp by lia.
        destruct (step_at n id p Hn Hp) as (p' & new & k & k' & G1 & G2 & G3).
        destruct (psteps_fine _ _ _ _ _ _ _ (Hquiet n Hn) G2 Hf) as (I1 & I2 & I3).
        apply kapS_at in Hp as [-> ->]. apply kapS_at in G1 as [-> ->]. lia. }
      split; [apply sum_le; intros; by apply H|].
      rewrite !length_sum by lia. rewrite <-!sum_add. apply sum_le. intros x Hx. by apply H.
    Qed.
    Lemma arr d : ∀ n, (n0 <= n)%nat → (arrivals (s n) (map ev (seq n d)) + kaps (n + d) <= kaps n)%nat.
    Proof.
      induction d as [|d IH]; intros n Hn; [rewrite Nat.add_0_r; cbn; lia|].
      cbn [seq map Spec.arrivals]. rewrite <-s_S. specialize (IH (S n) ltac:(lia)). destruct (grow n Hn).
      replace (n + S d)%nat with (S n + d)%nat by lia. lia.
    Qed.
    Lemma room n d : (n0 <= n)%nat →
      (length (qlist (sw (s n)) Queued) + arrivals (s n) (map ev (seq n d)) <= work_left name (s n0))%nat.
    Proof.
      intros Hn. pose proof (arr d n Hn) as H1.
      assert (length (qlist (sw (s n)) Queued) + kaps n <= length (qlist (sw (s n0)) Queued) + kaps n0)%nat as H2.
      { replace n with (n0 + (n - n0))%nat by lia. induction (n - n0)%nat as [|e IH]; [by rewrite Nat.add_0_r|].
        rewrite Nat.add_succ_r. destruct (grow (n0 + e) ltac:(lia)). lia. }
      assert (length (qlist (sw (s n0)) Queued) + kaps n0 <= work_left name (s n0))%nat as H3.
      { rewrite length_sum by lia. rewrite <-sum_add. apply sum_le. intros id Hid.
        destruct (at_K id Hid) as (p & Hp & _ & _ & H). apply kapS_at in Hp as [-> ->]. done. }
      lia.
    Qed.

    (** *** Every pending job ends *)
    Definition ended (n : nat) (id : string) : Prop :=
      ∃ j, at_ (s n) id (PDone j) ∧ (jstatus (ctx j) = Finished ∨ jstatus (ctx j) = Failed).
    Lemma no_orphan n id j : ¬ at_ (s n) id (POrphan j).
    Proof.
      intros ((_ & _ & H1 & H2) & _). apply (served_n prof sched name clock ev Hh n id); [|exact H2]. apply cnt_pos. lia.
    Qed.
    Lemma queued_ends v : ∀ n id j, (n0 <= n)%nat → at_ (s n) id (PQueued j) → ends_some_day j → (tries_left j < v)%nat →
      ∃ n1, (n <= n1)%nat ∧ ended n1 id.
    Proof.
      induction v as [|v IH]; intros n id j Hn Hp Hj Hv; [lia|].
      assert (id ∈ qlist (sw (s n)) Queued ∧ stored (sw (s n)) id = Some j) as [Hq Hs].
      { destruct Hp as ((H1 & H2 & _) & _). split; [|done]. apply cnt_pos. lia. }
      destruct (fair_progress_later prof sched name clock ev Hh Hticks Hpolls n id j (work_left name (s n0)))
        as (n1 & n2 & Hn12 & Hr & Ht); try done.
      { by eapply Hdue. }
      { intros m Hm. pose proof (Hquiet m ltac:(lia)) as Hm'. unfold no_new_work in Hm'. destruct (ev m); try done; (split; [|done]); unfold submits; naive_solver. }
      { intros d. by apply room. }
      destruct (fine_le n (n2 - n) id (PQueued j) Hn Hp Hj) as (p2 & Hp2 & Hf2 & Hl2 & _).
      replace (n + (n2 - n))%nat with n2 in * by lia.
      pose proof (runs_of_le prof sched name clock ev Hh id n1 n2 ltac:(lia)).
      assert (pot p2 < S (tries_left j))%nat as Hlt by (cbn [pot] in Hl2; lia).
      destruct p2 as [|j2|j2|t|j2|j2]; try done.
      - destruct (IH n2 id j2) as (n3 & Hn3 & H3); [lia|done|done|cbn [pot] in Hlt; lia|]. exists n3. split; [lia|done].
      - destruct Hp2 as ((_ & _ & _ & H2) & _). congruence.
      - by apply no_orphan in Hp2.
      - exists n2. split; [lia|]. by exists j2.
    Qed.
    Lemma ends_at n id p : (n0 <= n)%nat → at_ (s n) id p → fine p → ∃ n1, (n <= n1)%nat ∧ ended n1 id.
    Proof.
      intros Hn Hp Hf. destruct p as [|j|j|t|j|j]; try done.
      - apply (queued_ends (S (tries_left j)) n id j); try done; lia.
      - assert (t ∈ tasks (s n)) as Hin.
        { destruct Hp as ((_ & _ & _ & H) & _). assert (t ∈ tasks_of id (s n)) as Hi by (rewrite H; by apply elem_of_list_singleton).
          by apply elem_of_list_filter in Hi as [_ Hi]. }
        destruct (completes prof sched name clock ev Hh Hpolls n t Hin) as (m & Hm & Ht).
        assert (tid t = id) as Eid by apply Hp. rewrite Eid in Ht.
        destruct (fine_le n (m - n) id (PTask t) Hn Hp Hf) as (p2 & Hp2 & Hf2 & _).
        replace (n + (m - n))%nat with m in * by lia.
        destruct p2 as [|j2|j2|t2|j2|j2]; try done.
        + destruct (queued_ends (S (tries_left j2)) m id j2) as (n1 & H1 & H2); try done; try lia. exists n1. split; [lia|done].
        + destruct Hp2 as ((_ & _ & _ & H2) & _). congruence.
        + by apply no_orphan in Hp2.
        + exists m. split; [done|]. by exists j2.
      - by apply no_orphan in Hp.
      - exists n. split; [done|]. by exists j.
    Qed.
    Lemma ended_stays n d id : (n0 <= n)%nat → ended n id → ended (n + d) id.
    Proof.
      intros Hn (j & H1 & H2). exists j. split; [|done]. by apply (still_le n d id (PDone j)).
    Qed.
    Lemma all_ended (l : list string) : (∀ id, id ∈ l → id ∈ K) → ∃ n1, (n0 <= n1)%nat ∧ ∀ id, id ∈ l → ended n1 id.
    Proof.
      induction l as [|id l IH]; intros Hl.
      - exists n0. split; [lia|]. intros id Hid. by apply elem_of_nil in Hid.
      - destruct IH as (n1 & Hn1 & H1); [intros; apply Hl; by right|].
        destruct (at_K id (Hl id ltac:(left))) as (p & Hp & Hf & _).
        destruct (ends_at n0 id p ltac:(lia) Hp Hf) as (n2 & Hn2 & H2).
        exists (n1 + (n2 - n1))%nat. split; [lia|]. intros id' [->|Hi]%elem_of_cons.
        + replace (n1 + (n2 - n1))%nat with (n2 + (n1 - n2))%nat by lia. by apply ended_stays.
        + apply ended_stays; [done|]. by apply H1.
    Qed.
    Lemma drains :
      ∃ n1, (n0 <= n1)%nat ∧ ∀ n, (n1 <= n)%nat →
        qlist (sw (s n)) Queued = [] ∧ qlist (sw (s n)) Running = [] ∧ tasks (s n) = [] ∧ runs (s n) = runs (s n1) ∧
        (∀ id, id ∈ K → status_of (s n) id = Some Finished ∨ status_of (s n) id = Some Failed).
    Proof.
      destruct (all_ended K (λ _ H, H)) as (n1 & Hn1 & H1). exists n1. split; [done|].
      assert (∀ n, (n1 <= n)%nat → ∀ id, ∃ p, at_ (s n) id p ∧ still p) as Hst.
      { intros n Hn id. destruct (decide (id ∈ K)) as [Hk|Hk].
        - destruct (ended_stays n1 (n - n1) id Hn1 (H1 id Hk)) as (j & Hj & _).
          replace (n1 + (n - n1))%nat with n in Hj by lia. by exists (PDone j).
        - destruct (at_other id Hk) as (p & Hp & Hs). exists p. split; [|done].
          destruct (still_le n0 (n - n0) id p ltac:(lia) Hp Hs) as [H2 _]. by replace (n0 + (n - n0))%nat with n in H2 by lia. }
      assert (∀ n, (n1 <= n)%nat → pending name (s n) = [] ∧ tasks (s n) = []) as Hem.
      { intros n Hn. split.
        - destruct (pending name (s n)) as [|id l] eqn:E; [done|]. exfalso.
          destruct (Hst n Hn id) as (p & Hp & Hs). pose proof (proj1 (in_pending _ _ _ Hp)) as Hi.
          rewrite E in Hi. specialize (Hi ltac:(left)). destruct p; try done. by apply no_orphan in Hp.
        - destruct (tasks (s n)) as [|t l] eqn:E; [done|]. exfalso. destruct (Hst n Hn (tid t)) as (p & Hp & Hs).
          pose proof (at_task_of name (s n) 0 t (at_n n) ltac:(by rewrite E)) as Hp'.
          assert (p = PTask t) as -> by by eapply at_fun. done. }
      intros n Hn. destruct (Hem n Hn) as [E1 E2]. unfold pending in E1. apply app_nil in E1 as [E1 E3].
      split; [done|]. split; [done|]. split; [done|]. split.
      - replace n with (n1 + (n - n1))%nat by lia. clear -Hem Hh. induction (n - n1)%nat as [|d IH]; [by rewrite Nat.add_0_r|].
        rewrite Nat.add_succ_r, s_S, step_runs, IH. destruct (Hem (n1 + d)%nat ltac:(lia)) as [_ ->].
        destruct (ev _); rewrite ?lookup_nil, ?app_nil_r; done.
      - intros id Hid. destruct (ended_stays n1 (n - n1) id Hn1 (H1 id Hid)) as (j & Hj & Hd).
        replace (n1 + (n - n1))%nat with n in Hj by lia. unfold status_of.
        destruct Hj as ((-> & _) & _). cbn. destruct Hd as [-> | ->]; auto.
    Qed.
    Lemma few_runs n id : (n0 <= n)%nat →
      (length (runs_of id (s n)) <= length (runs_of id (s n0)) + if decide (id ∈ K) then executions_left (s n0) id else 0)%nat.
    Proof.
      intros Hn. case_decide as Hk.
      - destruct (at_K id Hk) as (p & Hp & Hf & Hl & _).
        destruct (fine_le n0 (n - n0) id p ltac:(lia) Hp Hf) as (p' & _ & _ & H & _).
        replace (n0 + (n - n0))%nat with n in H by lia. lia.
      - destruct (at_other id Hk) as (p & Hp & Hs). destruct (still_le n0 (n - n0) id p ltac:(lia) Hp Hs) as [_ H].
        replace (n0 + (n - n0))%nat with n in H by lia. rewrite H. lia.
    Qed.
  End run.
  (** The clock passes every time. *)
  Lemma come_due (ev : nat → event M) n0 :
    healthy prof sched name clock ev → (∀ n, (n0 <= n)%nat → no_new_work (ev n)) →
    (∀ id j, id ∈ pending name (moment prof sched name clock ev n0) →
       stored (sw (moment prof sched name clock ev n0)) id = Some j → ends_some_day j) →
    (∀ t, ∃ k0, ∀ k, (k0 <= k)%nat → t < clock k) →
    ∀ n id j, (n0 <= n)%nat → id ∈ qlist (sw (moment prof sched name clock ev n)) Queued →
      stored (sw (moment prof sched name clock ev n)) id = Some j → ∃ k0, ∀ k, (k0 <= k)%nat → due j (clock k).
  Proof.
    intros Hh Hq He Hc n id j Hn Hid Hs.
    pose proof (waiting_K ev Hh n0 Hq n id Hn Hid) as Hk.
    destruct (at_K ev Hh n0 He id Hk) as (p0 & Hp0 & Hf0 & _).
    destruct (fine_le ev Hh n0 Hq n0 (n - n0) id p0 ltac:(lia) Hp0 Hf0) as (p & Hp & Hf & _).
    replace (n0 + (n - n0))%nat with n in Hp by lia.
    destruct (at_waiting name _ id p Hp Hid) as [j' ->]. destruct Hp as ((Hs' & _) & _).
    rewrite Hs in Hs'. injection Hs' as <-. destruct Hf as [Hf _]. unfold due.
    destruct (jtype (ctx j)) as [|t|x sl m cc]; [by exists 0%nat|apply Hc|by destruct (Hf x sl m cc)].
  Qed.
End facts.
