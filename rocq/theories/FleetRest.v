(** A fleet that gets no more work comes to rest. *)
From Verif Require Import SpecFleetRest JsonFacts BackendFacts WorldFacts MicroFacts LifeFacts HistFacts SubmitFacts
  LifeProps ListFacts ApiFacts PickFacts PluginFacts StarveFacts CrashFacts LiveFacts DrainFacts WorkersFacts FleetLive FleetFair.
Open Scope Z_scope.

Section start.
  Context {M : Type}.
  Context (prof : profile).
  Context (sched : string → option (time → option time)).
  Context (clock : nat → time).
  Definition as_tick (e : event M) : event M := match e with EvStart => EvTick | e => e end.
  Lemma pstep_tick id (e : event M) k p new k' p' :
    pstep prof sched clock id e k p new k' p' → pstep prof sched clock id (as_tick e) k p new k' p'.
  Proof.
    intros H. destruct e; try exact H. cbn. inversion H; subst; try done.
    - by apply p_stay.
    - apply p_pick; [by left|done].
    - eapply p_die; eauto.
  Qed.
  Lemma psteps_tick id (e : event M) k p new k' p' :
    psteps prof sched clock id e k p new k' p' → psteps prof sched clock id (as_tick e) k p new k' p'.
  Proof. induction 1; [apply ps_refl|]. eapply ps_step; [by apply pstep_tick|done]. Qed.
  Lemma quiet_tick (e : event M) : f_no_new_work e → no_new_work (as_tick e).
  Proof. intros [H| ->]; [by destruct e|done]. Qed.
End start.

Definition orphaned {M} (p : pstate (M := M)) : bool := match p with POrphan _ => true | _ => false end.

Section facts.
  Context {M : Type} `{SM : Serde M} {SO : SerdeOk M}.
  Context (prof : nat → profile).
  Context (sched : nat → string → option (time → option time)).
  Context (name : string).
  Context (clock : nat → nat → time).
  Notation qlist := (qlist name).
  Notation stored := (@stored M SM).
  Notation at_ := (at_ name).
  Notation all_at := (all_at name).
  Context (N : nat) (ev : nat → nat * event M) (n0 : nat).
  Notation F n := (f_moment prof sched name clock N ev n).
  Notation arrivals := (fleet_arrivals prof sched name clock).
  Notation runs_of id n := (f_runs_of id (F n)).
  Context (Hh : f_healthy prof sched name clock N ev n0).
  Context (Hticks : f_ticking prof sched name clock N ev).
  Context (Hpolls : f_polling prof sched name clock N ev n0).
  Context (Hquiet : ∀ n, (n0 <= n)%nat → f_no_new_work (ev n).2).
  Context (Hends : ∀ id j, id ∈ to_do name (F n0) → stored (f_world (F n0)) id = Some j → ends_some_day j).
  Notation K := (to_do name (F n0)).
  Notation F_S := (F_S prof sched name clock N ev).
  Notation F_at := (F_at prof sched name clock N ev n0 Hh).

  Lemma in_to_do f id p : at_ (whole f) id p → id ∈ to_do name f ↔ match p with PQueued _ | PTask _ => True | _ => False end.
  Proof.
    intros Hp. unfold to_do. rewrite elem_of_app, (at_task_in name f id p Hp), <-cnt_pos.
    assert (cnt id (qlist (f_world f) Queued) = match p with PQueued _ => 1 | _ => 0 end)%nat as ->.
    { destruct p; cbn in Hp; destruct_and?; done. }
    destruct p; split; intros H; try done; try (by left; lia); try (by right; eauto).
    all: destruct H as [H|[? H]]; [lia|done].
  Qed.
  Lemma at_to_do f id p : at_ (whole f) id p → id ∈ to_do name f → (∀ j, stored (f_world f) id = Some j → ends_some_day j) →
    fine p ∧ (pot p <= f_executions_left f id)%nat ∧ (qs p + kap p <= f_executions_left f id)%nat.
  Proof.
    intros Hp Hid He. pose proof (proj1 (in_to_do _ _ _ Hp) Hid) as Hk. unfold f_executions_left.
    destruct p as [|j|j|t|j|j]; try done; cbn in Hp; destruct Hp as ((Hs & _) & _ & Hp); fold (stored (f_world f) id); rewrite Hs.
    - split; [by apply He|]. cbn. lia.
    - split; [split; [by apply He|]|].
      + destruct Hp as (_ & _ & H1). destruct (t_phase t); [rewrite H1; done..|]. by destruct H1 as [d ->].
      + cbn. destruct (t_phase t); lia.
  Qed.
  Lemma at_K id : id ∈ K → ∃ p, at_ (whole (F n0)) id p ∧ fine p ∧ (pot p <= f_executions_left (F n0) id)%nat ∧
    (qs p + kap p <= f_executions_left (F n0) id)%nat.
  Proof.
    intros Hid. destruct (F_at n0 id) as [p Hp]. exists p. split; [done|].
    apply at_to_do; [done|done|]. intros j. by apply Hends.
  Qed.
  Lemma at_other id : id ∉ K → ∃ p, at_ (whole (F n0)) id p ∧ still p.
  Proof.
    intros Hid. destruct (F_at n0 id) as [p Hp]. exists p. split; [done|].
    destruct p; try done; destruct Hid; by apply (in_to_do _ _ _ Hp).
  Qed.
  Lemma R_step n id p : at_ (whole (F n)) id p →
    ∃ p' new k k', at_ (whole (F (S n))) id p' ∧
      psteps (prof (ev n).1) (sched (ev n).1) (clock (ev n).1) id (as_tick (ev n).2) k p new k' p' ∧
      runs_of id (S n) = runs_of id n ++ new.
  Proof.
    intros Hp. rewrite F_S, (surjective_pairing (ev n)).
    destruct (fleet_life prof sched name clock (F n) (ev n).1 (ev n).2) as [_ H]; [by eapply F_event|apply F_at|].
    destruct (H id p Hp) as (p' & new & H1 & H2 & H3). apply psteps_tick in H2. eauto 10.
  Qed.
  Lemma R_fine n d id p : (n0 <= n)%nat → at_ (whole (F n)) id p → fine p →
    ∃ p', at_ (whole (F (n + d)%nat)) id p' ∧ fine p' ∧
      (pot p' + length (runs_of id (n + d)%nat) <= pot p + length (runs_of id n))%nat ∧
      (qs p' + kap p' <= qs p + kap p)%nat.
  Proof.
    intros Hn Hp Hf. induction d as [|d (p1 & H1 & H2 & H3 & H4)].
    - rewrite Nat.add_0_r. exists p. split; [done|]. split; [done|]. lia.
    - rewrite Nat.add_succ_r. destruct (R_step (n + d) id p1 H1) as (p' & new & k & k' & G1 & G2 & G3).
      destruct (psteps_fine _ _ _ _ _ _ _ _ _ _ (quiet_tick _ (Hquiet (n + d)%nat ltac:(lia))) G2 H2) as (I1 & I2 & I3).
      exists p'. split; [done|]. split; [done|]. rewrite G3, app_length. lia.
  Qed.
  Lemma R_still n d id p : (n0 <= n)%nat → at_ (whole (F n)) id p → still p →
    at_ (whole (F (n + d)%nat)) id p ∧ runs_of id (n + d)%nat = runs_of id n.
  Proof.
    intros Hn Hp Hf. induction d as [|d [H1 H2]].
    - rewrite Nat.add_0_r. done.
    - rewrite Nat.add_succ_r. destruct (R_step (n + d) id p H1) as (p' & new & k & k' & G1 & G2 & G3).
      destruct (psteps_still _ _ _ _ _ _ _ _ _ _ (quiet_tick _ (Hquiet (n + d)%nat ltac:(lia))) G2 Hf) as [-> ->].
      split; [done|]. by rewrite G3, app_nil_r.
  Qed.
  (** No process leaves a job behind from [n0] on. *)
  Lemma R_kept n id p : (n0 <= n)%nat → id ∈ K → at_ (whole (F n)) id p → orphaned p = false.
  Proof.
    intros Hn Hk Hp. destruct p as [|j'|j'|t|j'|j']; try done. exfalso.
    assert (filter (λ t : task M, tid t = id) (fakes name (F n0)) = []) as E0.
    { rewrite fakes_of by apply F_at. rewrite decide_False; [done|]. intros Hl.
      destruct (lost_orphan name (F n0) id (F_at n0) Hl) as [j Hj]. by apply (in_to_do _ _ _ Hj) in Hk. }
    destruct (F_wide prof sched name clock N ev n0 Hh n Hn) as [_ W2].
    apply (W2 id).
    - cbn. apply cnt_pos. destruct Hp as [(_ & _ & Hr & _) _]. cbn in Hr. lia.
    - unfold tasks_of. cbn. rewrite list.filter_app, E0. by destruct Hp as [(_ & _ & _ & Ht) _].
  Qed.

  (** *** The number of arrivals *)
  Notation kapF n := (kapS name (whole (F n))).
  Notation kaps n := (sum_list_with (kapF n) K).
  Lemma nodup_K : NoDup K.
  Proof.
    unfold to_do. apply NoDup_app. split; [apply whole_nodup, F_at|]. split; [|by eapply F_nodup].
    intros id Hq Ht. destruct (F_at n0 id) as [p Hp]. destruct (proj1 (at_task_in name (F n0) id p Hp) Ht) as [t E]. subst p.
    apply cnt_pos in Hq. destruct Hp as ((_ & Hc & _) & _). cbn in Hc. lia.
  Qed.
  Lemma R_waiting n id : (n0 <= n)%nat → id ∈ qlist (f_world (F n)) Queued → id ∈ K.
  Proof.
    intros Hn Hid. destruct (decide (id ∈ K)) as [|Hk]; [done|]. exfalso.
    destruct (at_other id Hk) as (p & Hp & Hs). destruct (R_still n0 (n - n0) id p ltac:(lia) Hp Hs) as [H1 _].
    replace (n0 + (n - n0))%nat with n in H1 by lia. destruct (at_waiting name _ id p H1 Hid) as [j ->]. done.
  Qed.
  Lemma R_length n : (n0 <= n)%nat →
    length (qlist (f_world (F n)) Queued) = sum_list_with (λ id, cnt id (qlist (f_world (F n)) Queued)) K.
  Proof. intros Hn. symmetry. apply sum_cnt; [apply nodup_K|]. intros x. by apply R_waiting. Qed.
  Lemma R_kap f id p : at_ (whole f) id p → kapS name (whole f) id = kap p ∧ cnt id (qlist (f_world f) Queued) = qs p.
  Proof. exact (kapS_at (prof 0%nat) (sched 0%nat) name (clock 0%nat) (λ n, (ev n).2) n0 (whole f) id p). Qed.
  Lemma R_grow n : (n0 <= n)%nat →
    (kaps (S n) <= kaps n)%nat ∧
    (length (qlist (f_world (F (S n))) Queued) + kaps (S n) <= length (qlist (f_world (F n)) Queued) + kaps n)%nat.
  Proof.
    intros Hn.
    assert (∀ id, id ∈ K → (kapF (S n) id <= kapF n id)%nat ∧
      (cnt id (qlist (f_world (F (S n))) Queued) + kapF (S n) id <= cnt id (qlist (f_world (F n)) Queued) + kapF n id)%nat) as H.
    { intros id Hid. destruct (at_K id Hid) as (p0 & Hp0 & Hf0 & _).
      destruct (R_fine n0 (n - n0) id p0 ltac:(lia) Hp0 Hf0) as (p & Hp & Hf & _).
      replace (n0 + (n - n0))%nat with n in Hp by lia.
      destruct (R_step n id p Hp) as (p' & new & k & k' & G1 & G2 & G3).
      destruct (psteps_fine _ _ _ _ _ _ _ _ _ _ (quiet_tick _ (Hquiet n Hn)) G2 Hf) as (I1 & I2 & I3).
      apply R_kap in Hp as [-> ->]. apply R_kap in G1 as [-> ->]. lia. }
    split; [apply sum_le; intros; by apply H|].
    rewrite !R_length by lia. rewrite <-!sum_add. apply sum_le. intros x Hx. by apply H.
  Qed.
  Lemma R_arr d : ∀ n, (n0 <= n)%nat → (arrivals (F n) (map ev (seq n d)) + kaps (n + d)%nat <= kaps n)%nat.
  Proof.
    induction d as [|d IH]; intros n Hn; [rewrite Nat.add_0_r; cbn; lia|].
    cbn [seq map fleet_arrivals]. rewrite <-F_S. specialize (IH (S n) ltac:(lia)). destruct (R_grow n Hn).
    replace (n + S d)%nat with (S n + d)%nat by lia. lia.
  Qed.
  Lemma R_room n d : (n0 <= n)%nat →
    (length (qlist (f_world (F n)) Queued) + arrivals (F n) (map ev (seq n d)) <= f_work_left name (F n0))%nat.
  Proof.
    intros Hn. pose proof (R_arr d n Hn) as H1.
    assert (length (qlist (f_world (F n)) Queued) + kaps n <= length (qlist (f_world (F n0)) Queued) + kaps n0)%nat as H2.
    { replace n with (n0 + (n - n0))%nat by lia. induction (n - n0)%nat as [|e IH]; [by rewrite Nat.add_0_r|].
      rewrite Nat.add_succ_r. destruct (R_grow (n0 + e) ltac:(lia)). lia. }
    assert (length (qlist (f_world (F n0)) Queued) + kaps n0 <= f_work_left name (F n0))%nat as H3.
    { rewrite R_length by lia. rewrite <-sum_add. apply sum_le. intros id Hid.
      destruct (at_K id Hid) as (p & Hp & _ & _ & H). apply R_kap in Hp as [-> ->]. done. }
    lia.
  Qed.

  Lemma R_few n id : (n0 <= n)%nat →
    (length (runs_of id n) <= length (runs_of id n0) + if decide (id ∈ K) then f_executions_left (F n0) id else 0)%nat.
  Proof.
    intros Hn. case_decide as Hk.
    - destruct (at_K id Hk) as (p & Hp & Hf & Hl & _).
      destruct (R_fine n0 (n - n0) id p ltac:(lia) Hp Hf) as (p' & _ & _ & H & _).
      replace (n0 + (n - n0))%nat with n in H by lia. lia.
    - destruct (at_other id Hk) as (p & Hp & Hs). destruct (R_still n0 (n - n0) id p ltac:(lia) Hp Hs) as [_ H].
      replace (n0 + (n - n0))%nat with n in H by lia. rewrite H. lia.
  Qed.
  Lemma R_come_due : (∀ t, ∃ k0, ∀ i k, (k0 <= k)%nat → t < clock i k) →
    ∀ n id j, (n0 <= n)%nat → id ∈ qlist (f_world (F n)) Queued → stored (f_world (F n)) id = Some j →
      ∃ k0, ∀ i k, (k0 <= k)%nat → due j (clock i k).
  Proof.
    intros Hc n id j Hn Hid Hs. pose proof (R_waiting n id Hn Hid) as Hk.
    destruct (at_K id Hk) as (p0 & Hp0 & Hf0 & _).
    destruct (R_fine n0 (n - n0) id p0 ltac:(lia) Hp0 Hf0) as (p & Hp & Hf & _).
    replace (n0 + (n - n0))%nat with n in Hp by lia.
    destruct (at_waiting name _ id p Hp Hid) as [j' ->]. destruct Hp as ((Hs' & _) & _). cbn in Hs'.
    rewrite Hs in Hs'. injection Hs' as <-. destruct Hf as [Hf _]. unfold due.
    destruct (jtype (ctx j)) as [|t|x sl m cc]; [by exists 0%nat|apply Hc|by destruct (Hf x sl m cc)].
  Qed.

  (** *** Every job ends *)
  Context (Hdue : ∀ n id j, (n0 <= n)%nat → id ∈ qlist (f_world (F n)) Queued → stored (f_world (F n)) id = Some j →
    ∃ k0, ∀ i k, (k0 <= k)%nat → due j (clock i k)).
  Context (Hwork : Z.of_nat (f_work_left name (F n0)) <= i32_max).
  Definition R_ended (n : nat) (id : string) : Prop :=
    ∃ j, at_ (whole (F n)) id (PDone j) ∧ (jstatus (ctx j) = Finished ∨ jstatus (ctx j) = Failed).
  Lemma R_queued v : ∀ n id j, (n0 <= n)%nat → id ∈ K → at_ (whole (F n)) id (PQueued j) → ends_some_day j → (tries_left j < v)%nat →
    ∃ n1, (n <= n1)%nat ∧ R_ended n1 id.
  Proof.
    induction v as [|v IH]; intros n id j Hn HK Hp Hj Hv; [lia|].
    assert (id ∈ qlist (f_world (F n)) Queued ∧ stored (f_world (F n)) id = Some j) as [Hq Hs].
    { destruct Hp as ((H1 & H2 & _) & _). cbn in H1, H2. split; [|done]. apply cnt_pos. lia. }
    destruct (F_progress prof sched name clock N ev n0 Hh Hticks Hpolls n id j (f_work_left name (F n0)))
      as (n1 & n2 & Hn12 & Hr & Ht); try done.
    { by eapply Hdue. }
    { intros m Hm. destruct (Hquiet m ltac:(lia)) as [Hm'|Hm'].
      - unfold no_new_work in Hm'. destruct (ev m).2; try done; (split; [|done]); unfold submits; naive_solver.
      - rewrite Hm'. split; [|done]. unfold submits; naive_solver. }
    { intros d. by apply R_room. }
    destruct (R_fine n (n2 - n) id (PQueued j) Hn Hp Hj) as (p2 & Hp2 & Hf2 & Hl2 & _).
    replace (n + (n2 - n))%nat with n2 in * by lia.
    pose proof (F_runs_le prof sched name clock N ev n0 Hh id n1 (n2 - n1)) as Hle. replace (n1 + (n2 - n1))%nat with n2 in Hle by lia.
    assert (pot p2 < S (tries_left j))%nat as Hlt by (cbn [pot] in Hl2; lia).
    pose proof (R_kept n2 id p2 ltac:(lia) HK Hp2) as Ho.
    destruct p2 as [|j2|j2|t|j2|j2]; try done.
    - destruct (IH n2 id j2) as (n3 & Hn3 & H3); [lia|done|done|done|cbn [pot] in Hlt; lia|]. exists n3. split; [lia|done].
    - destruct Ht. apply (at_task_in name (F n2) id _ Hp2). eauto.
    - exists n2. split; [lia|]. by exists j2.
  Qed.
  Lemma R_ends n id p : (n0 <= n)%nat → id ∈ K → at_ (whole (F n)) id p → fine p → ∃ n1, (n <= n1)%nat ∧ R_ended n1 id.
  Proof.
    intros Hn HK Hp Hf. pose proof (R_kept n id p Hn HK Hp) as Ho. destruct p as [|j|j|t|j|j]; try done.
    - apply (R_queued (S (tries_left j)) n id j); try done; lia.
    - assert (∃ i m, f_members (F n) !! i = Some m ∧ t ∈ m_tasks m) as (i & m & Em & Hin).
      { destruct Hp as ((_ & _ & _ & H) & _). assert (t ∈ tasks_of id (whole (F n))) as Hi by (rewrite H; by apply elem_of_list_singleton).
        apply elem_of_list_filter in Hi as [_ Hi]. cbn in Hi. unfold all_tasks in Hi.
        apply elem_of_list_In, in_concat in Hi as (l & Hl & Hi). apply in_map_iff in Hl as (m & <- & Hm).
        apply elem_of_list_In, elem_of_list_lookup in Hm as [i Hm]. apply elem_of_list_In in Hi. eauto. }
      destruct (F_completes prof sched name clock N ev n0 Hh Hpolls n i m t Hn Em Hin) as (k & Hk & Ht).
      assert (tid t = id) as Eid by apply Hp. rewrite Eid in Ht.
      destruct (R_fine n (k - n) id (PTask t) Hn Hp Hf) as (p2 & Hp2 & Hf2 & _).
      replace (n + (k - n))%nat with k in * by lia. pose proof (R_kept k id p2 ltac:(lia) HK Hp2) as Ho2.
      destruct p2 as [|j2|j2|t2|j2|j2]; try done.
      + destruct (R_queued (S (tries_left j2)) k id j2) as (n1 & H1 & H2); try done; try lia. exists n1. split; [lia|done].
      + destruct Ht. apply (at_task_in name (F k) id _ Hp2). eauto.
      + exists k. split; [done|]. by exists j2.
    - exists n. split; [done|]. by exists j.
  Qed.
  Lemma R_ended_stays n d id : (n0 <= n)%nat → R_ended n id → R_ended (n + d) id.
  Proof. intros Hn (j & H1 & H2). exists j. split; [|done]. by apply (R_still n d id (PDone j)). Qed.
  Lemma R_all (l : list string) : (∀ id, id ∈ l → id ∈ K) → ∃ n1, (n0 <= n1)%nat ∧ ∀ id, id ∈ l → R_ended n1 id.
  Proof.
    induction l as [|id l IH]; intros Hl.
    - exists n0. split; [lia|]. intros id Hid. by apply elem_of_nil in Hid.
    - destruct IH as (n1 & Hn1 & H1); [intros; apply Hl; by right|].
      destruct (at_K id (Hl id ltac:(left))) as (p & Hp & Hf & _).
      destruct (R_ends n0 id p ltac:(lia) (Hl id ltac:(left)) Hp Hf) as (n2 & Hn2 & H2).
      exists (n1 + (n2 - n1))%nat. split; [lia|]. intros id' [->|Hi]%elem_of_cons.
      + replace (n1 + (n2 - n1))%nat with (n2 + (n1 - n2))%nat by lia. by apply R_ended_stays.
      + apply R_ended_stays; [done|]. by apply H1.
  Qed.
  Lemma R_rests :
    ∃ n1, (n0 <= n1)%nat ∧ ∀ n, (n1 <= n)%nat →
      qlist (f_world (F n)) Queued = [] ∧ all_tasks (F n) = [] ∧ qlist (f_world (F n)) Running ≡ₚ lost name (F n0) ∧
      f_runs (F n) = f_runs (F n1) ∧
      (∀ id, id ∈ K → f_status_of (F n) id = Some Finished ∨ f_status_of (F n) id = Some Failed) ∧
      (∀ id, id ∉ K → stored (f_world (F n)) id = stored (f_world (F n0)) id).
  Proof.
    destruct (R_all K (λ _ H, H)) as (n1 & Hn1 & H1). exists n1. split; [done|].
    assert (∀ id, ∃ p, at_ (whole (F n1)) id p ∧ still p ∧
      ((∃ j, p = POrphan j) ↔ id ∈ lost name (F n0))) as Hst.
    { intros id. destruct (decide (id ∈ K)) as [Hk|Hk].
      - destruct (H1 id Hk) as (j & Hj & _). exists (PDone j). split; [done|]. split; [done|]. split; [by intros [? ?]|].
        intros Hl. exfalso. destruct (lost_orphan name (F n0) id (F_at n0) Hl) as [j0 Hj0]. by apply (in_to_do _ _ _ Hj0) in Hk.
      - destruct (at_other id Hk) as (p & Hp & Hs). exists p.
        destruct (R_still n0 (n1 - n0) id p ltac:(lia) Hp Hs) as [H2 _]. replace (n0 + (n1 - n0))%nat with n1 in H2 by lia.
        split; [done|]. split; [done|]. split.
        + intros [j ->]. unfold lost. apply elem_of_list_filter. split; [intros Hi; apply Hk, elem_of_app; by right|].
          apply cnt_pos. destruct Hp as ((_ & _ & Hc & _) & _). cbn in Hc. lia.
        + intros Hl. destruct (lost_orphan name (F n0) id (F_at n0) Hl) as [j0 Hj0].
          assert (p = POrphan j0) as -> by exact (at_fun (sched 0%nat) _ _ _ _ _ Hp Hj0). by exists j0. }
    assert (∀ n, (n1 <= n)%nat → ∀ id p, at_ (whole (F n1)) id p → still p → at_ (whole (F n)) id p) as Hkeep'.
    { intros n Hn id p Hp Hs. destruct (R_still n1 (n - n1) id p Hn1 Hp Hs) as [G1 G2].
      by replace (n1 + (n - n1))%nat with n in * by lia. }
    assert (∀ n, (n1 <= n)%nat → to_do name (F n) = []) as Ee.
    { intros n Hn. pose proof (Hkeep' n Hn) as Hkeep. destruct (to_do name (F n)) as [|id l] eqn:E; [done|]. exfalso.
      destruct (Hst id) as (p & Hp & Hs & _). pose proof (Hkeep id p Hp Hs) as G.
      pose proof (proj1 (in_to_do _ _ _ G)) as Hi. rewrite E in Hi. specialize (Hi ltac:(left)). by destruct p. }
    assert (∀ n, (n1 <= n)%nat → qlist (f_world (F n)) Queued = [] ∧ all_tasks (F n) = []) as Ee'.
    { intros n Hn. specialize (Ee n Hn). unfold to_do in Ee. apply app_nil in Ee as [E1 E2]. by apply map_eq_nil in E2. }
    intros n Hn. pose proof (Hkeep' n Hn) as Hkeep. destruct (Ee' n Hn) as [E1 E2].
    split; [done|]. split; [done|]. split.
    { apply NoDup_Permutation.
      - apply (running_nodup name (F n)), F_at.
      - unfold lost. apply list.NoDup_filter. apply (running_nodup name (F n0)), F_at.
      - intros id. destruct (Hst id) as (p & Hp & Hs & Ho). pose proof (Hkeep id p Hp Hs) as G. rewrite <-Ho, <-cnt_pos.
        assert (cnt id (qlist (f_world (F n)) Running) = if orphaned p then 1 else 0)%nat as ->.
        { destruct p; cbn in G; destruct_and?; done. }
        destruct p; cbn; (split; [intros; try lia|intros [? ?]; try done; lia]). eauto. }
    split.
    { replace n with (n1 + (n - n1))%nat by lia. clear -Ee' Hh. induction (n - n1)%nat as [|d IH]; [by rewrite Nat.add_0_r|].
      rewrite Nat.add_succ_r, F_S. rewrite <-IH. unfold fleet_step. destruct (f_members (F (n1 + d)%nat) !! (ev (n1 + d)%nat).1) as [m|] eqn:Em; [|done].
      cbn [f_runs]. rewrite step_runs. cbn [seen_by runs tasks].
      assert (m_tasks m = []) as ->.
      { destruct (tasks_split _ _ m Em) as (o & Ho & _). destruct (Ee' (n1 + d)%nat ltac:(lia)) as [_ E]. rewrite E in Ho.
        apply Permutation_nil_l in Ho. symmetry in Ho. by apply app_nil in Ho as [_ Ho]. }
      destruct (ev _).2; rewrite ?lookup_nil, ?app_nil_r; done. }
    split.
    - intros id Hid. destruct (H1 id Hid) as (j & Hj & Hd). pose proof (Hkeep id (PDone j) Hj Logic.I) as G.
      unfold f_status_of. destruct G as ((G & _) & _). cbn in G. rewrite G. cbn. destruct Hd as [-> | ->]; auto.
    - intros id Hid. destruct (at_other id Hid) as (p & Hp & Hs).
      destruct (R_still n0 (n - n0) id p ltac:(lia) Hp Hs) as [H2 _]. replace (n0 + (n - n0))%nat with n in H2 by lia.
      assert (∀ f, at_ (whole f) id p → stored (f_world f) id =
        match p with PAbsent => None | PQueued j | PLimbo j | POrphan j | PDone j => Some j | PTask t => Some (t_orig t) end) as Hsd.
      { intros f Hf. destruct p; cbn in Hf; destruct_and?; done. }
      by rewrite (Hsd _ H2), (Hsd _ Hp).
  Qed.
End facts.
