(** A steady flow of arrivals that starves waiting jobs (C15), and configuration changes (C50). *)
From Verif Require Import Spec JsonFacts BackendFacts WorldFacts MicroFacts LifeFacts HistFacts SubmitFacts LifeProps ListFacts ApiFacts PickFacts.

Section starve.
  Context {M : Type} `{SM : Serde M} {SO : SerdeOk M}.
  Context (prof : profile).
  Context (sched : string → option (time → option time)).
  Context (name : string).
  Context (clock : nat → time).
  Notation h := (mem_h clock).
  Notation qlist := (qlist name).
  Notation stored := (@stored M SM).
  Notation sys := (sys world M).
  Notation step := (sys_step prof sched name h).
  Notation go := (sys_run prof sched name h).
  Notation all_at := (all_at name).
  Notation ok_hist := (ok_hist prof sched name clock).
  Notation free_ticks := (free_ticks prof sched name clock).

  (** *** Polls of a task *)
  Lemma step_task (s : sys) i t u :
    alive s = true → tasks s !! i = Some t → is_cancelled (t_job t) = false →
    (step s (EvTask i u)).1 =
    match t_phase t with
    | Spawned => Sys (w_send (sw s) (RunHook (jid (t_job t)) true)) (cfg s)
                   (<[i := Task (t_orig t) (t_job t) Hooked]> (tasks s)) true (runs s)
    | Hooked => Sys (sw s) (cfg s) (<[i := Task (t_orig t) (bump (t_job t)) InUser]> (tasks s)) true
                   (runs s ++ [bump (t_job t)])
    | InUser => Sys (w_send (sw s) (RunHook (jid (t_job t)) true)) (cfg s)
                   (<[i := Task (t_orig t) (set_data (t_job t) (ur_data u)) AfterHook]> (tasks s)) true (runs s)
    | AfterHook =>
        let w' := do_tail prof sched name clock (sw s) (t_job t) u in
        match snd (judge prof sched clock (reads (sw s)) (t_job t) u) with
        | VPanic => Sys w' (cfg s) [] false (runs s)
        | _ => Sys w' (cfg s) (delete i (tasks s)) true (runs s)
        end
    end.
  Proof.
    intros Ha Ht Hc. unfold sys_step. rewrite Ha. unfold commit. cbn [ev_prog]. rewrite Ht.
    unfold task_step. destruct (t_phase t) eqn:Ep.
    - rewrite Hc. cbn. by rewrite app_nil_r.
    - cbn. done.
    - cbn. by rewrite app_nil_r.
    - rewrite !run_bind, run_task_tail.
      destruct (snd (judge prof sched clock (reads (sw s)) (t_job t) u)); cbn; by rewrite ?app_nil_r.
  Qed.

  (** *** Ticks without a free slot; configuration *)
  Lemma tick_full (s : sys) :
    alive s = true → (max_processing_jobs (cfg s) <= length (qlist (sw s) Running))%nat →
    (step s EvTick).1 = s.
  Proof.
    intros Ha Hm. rewrite (step_tick prof sched name clock s Ha). unfold do_pick.
    rewrite (proj2 (Nat.leb_le _ _) Hm). cbn. rewrite app_nil_r. destruct s; cbn in *; by subst.
  Qed.

  Definition keeps_cfg (e : event M) : Prop :=
    match e with EvConfig _ | EvStart | EvCrashIn EvStart _ => False | _ => True end.
  Lemma step_config (s : sys) c :
    alive s = true → (step s (EvConfig c)).1 = Sys (sw s) c (tasks s) true (runs s).
  Proof. intros Ha. unfold sys_step. rewrite Ha. unfold commit. cbn. by rewrite app_nil_r. Qed.
  Lemma cfg_step (s : sys) e : keeps_cfg e → cfg (step s e).1 = cfg s.
  Proof.
    intros He. unfold sys_step.
    assert (cfg (commit prof sched name h s e).1 = cfg s) as Hc.
    { unfold commit. destruct e; try done; cbn [ev_prog].
      - rewrite run_bind, run_run_with_config. done.
      - rewrite run_bind, run_cancel. done.
      - rewrite run_bind, run_retry. done.
      - rewrite run_bind, run_process_jobs. cbv zeta.
        destruct (do_pick prof name clock (max_processing_jobs (cfg s)) (sw s)) as [[w' js] o].
        by destruct o.
      - destruct (tasks s !! i) as [t|]; [|done]. rewrite run_bind.
        destruct (run h (task_step prof sched name t u) (sw s)) as [w [[o js]| |]]; done. }
    destruct (alive s); destruct e; try done. by destruct e.
  Qed.
  Lemma cfg_stays (s : sys) es : Forall keeps_cfg es → cfg (go s es) = cfg s.
  Proof.
    revert s. induction es as [|e es IH]; intros s HE; [done|]. apply Forall_cons_1 in HE as [He HE].
    rewrite go_cons, IH by done. by apply cfg_step.
  Qed.

  (** *** The cycle *)
  Definition simple (j : job M) : Prop := jtype (ctx j) = Normal ∧ jretry (ctx j) = None.
  Definition cyc (s : sys) (y z : string) (F : list string) : Prop :=
    all_at s ∧ alive s = true ∧ max_processing_jobs (cfg s) = 1%nat ∧ tasks s = [] ∧
    qlist (sw s) Running = [] ∧ rev (qlist (sw s) Queued) = y :: F ++ [z] ∧ length F = 19%nat ∧
    ∀ id, id ∈ qlist (sw s) Queued → ∃ j, stored (sw s) id = Some j ∧ simple j.

  (** One tick, the complete execution of the job it started, one arrival. *)
  Definition one_round (u : user_result M) (j : job M) : list (event M) :=
    [EvTick; EvTask 0 u; EvTask 0 u; EvTask 0 u; EvTask 0 u; EvEnqueue j new_re_run].

  Lemma cyc_round (s : sys) y z F u (jy : job M) :
    cyc s y z F → ur_failed u = false → jid jy = y → simple jy → jstatus (ctx jy) = Queued →
    let s' := go s (one_round u jy) in
    cyc s' z y F ∧ (∃ r, jid r = y ∧ runs s' = runs s ++ [r]) ∧ free_ticks s (one_round u jy) = 1%nat ∧
    ok_hist s (one_round u jy) ∧ cfg s' = cfg s.
  Proof.
    intros (Hall & Ha & Hmx & Hts & Hrun & Hq & HF & Hst) Hu Hjy [Hty Hre] Hsy.
    assert (ok_hist s (one_round u jy)) as Hok.
    { apply plain_ok. repeat constructor; done. }
    pose proof (all_at_nodup name s Hall) as Hnd.
    assert (NoDup (y :: F ++ [z])) as HND by (rewrite <-Hq; by rewrite <-Permutation_rev).
    (* the tick *)
    assert (∃ j' w1, step s EvTick = (Sys w1 (cfg s) [spawn j'] true (runs s), (step s EvTick).2) ∧
      jid j' = y ∧ simple j' ∧ jstatus (ctx j') = Running ∧ rev (qlist w1 Queued) = z :: F ∧
      qlist w1 Running = [y] ∧ ∀ id, id ≠ y → stored w1 id = stored (sw s) id) as (j' & w1 & Hs1 & Hid & Hsim & Hstat & Hq1 & Hr1 & Hst1).
    { assert (∀ id, id ∈ y :: F → ∃ j, stored (sw s) id = Some j ∧ ∀ k, is_ready j (clock k) = true) as Hrdy.
      { intros id Hin. destruct (Hst id) as (j & Hj & Hn & _).
        - rewrite (Permutation_rev (qlist _ _)), Hq. set_solver.
        - exists j. split; [done|]. intros k. unfold is_ready. by rewrite Hn. }
      assert (rev (qlist (sw s) Queued) = (y :: F) ++ [z]) as Hq' by done.
      assert (NoDup (y :: F)) as HND'.
      { change (NoDup ((y :: F) ++ [z])) in HND. by apply NoDup_app in HND as [? _]. }
      destruct (scan_batch_fifo sched name clock (λ _, true) 1 (y :: F) [z] [] (sw s) Hq' (all_at_keyed name s Hall) HND') as [H1 H2];
        [intros; apply not_elem_of_nil|done|].
      destruct (scan_batch_spec sched name clock 1 (y :: F) [z] [] (sw s) Hq' (all_at_keyed name s Hall))
        as (kept & new & G1 & G2 & G3 & G4 & G5 & G6 & G7 & G8 & G9 & G10 & G11 & G12 & G13).
      cbn [length Nat.sub map app] in H1, H2, G1.
      assert (take 1 (filter (λ _ : string, true = true) (y :: F)) = [y]) as Ec.
      { rewrite filter_cons, decide_True by done. done. }
      rewrite Ec in H1, H2.
      set (r := scan_batch name clock 1 (y :: F) [] (sw s)) in *.
      rewrite filter_cons, decide_False in H2 by set_solver.
      assert (filter (λ id, id ∉ [y]) F = F) as EF.
      { rewrite (list_filter_iff' _ (λ _, True)).
        - clear. induction F as [|x l IH]; [done|]. rewrite filter_cons, decide_True by done. by rewrite IH.
        - intros x Hx. apply list.NoDup_cons in HND' as [Hy _]. split; [done|]. intros _ Hx'.
          apply elem_of_list_singleton in Hx'. by subst. }
      rewrite EF in H2. cbn [app] in H2.
      rewrite G1 in H1. destruct new as [|j' [|]]; cbn in H1; [done| |done]. injection H1 as Hid.
      assert (tasks s ++ [spawn j'] = [spawn j']) as Et by (rewrite Hts; done).
      exists j', r.1. split.
      { rewrite (surjective_pairing (step s EvTick)) at 1. f_equal.
        rewrite (step_tick prof sched name clock s Ha). unfold do_pick. rewrite Hmx, Hrun. cbn [length Nat.leb Nat.sub].
        cbn [scan_loop]. rewrite Hq. 
        assert (take BATCH (y :: F ++ [z]) = y :: F) as ->.
        { unfold BATCH. cbn. f_equal. rewrite take_app_le by lia. apply take_ge. lia. }
        assert (length (qlist (sw s) Queued) = 21%nat) as Hlen.
        { rewrite <-rev_length, Hq. cbn. rewrite app_length. cbn. lia. }
        rewrite Hlen. cbn [length]. rewrite HF.
        change (i32_norm prof (wrap32 (Z.of_nat 21) - Z.of_nat 20)) with (Some 1). cbv iota beta.
        fold r. destruct r as [w1 rd]. cbn [fst snd] in *. rewrite G1. cbn [length Nat.leb fst snd map].
        by rewrite Et. }
      destruct (G12 j' ltac:(set_solver)) as (j & k & E1 & E2 & _).
      destruct (Hst y) as (j0 & Hj0 & Hn0 & Hr0).
      { rewrite (Permutation_rev (qlist _ _)), Hq. set_solver. }
      rewrite Hid, Hj0 in E1. injection E1 as ->.
      split; [done|]. split; [subst j'; by split|]. split; [by subst j'|]. split; [done|].
      split; [rewrite G3, Hrun; cbn; by rewrite Hid|].
      intros id Hne. apply G8. cbn. rewrite Hid. set_solver. }
    (* the execution *)
    set (s1 := Sys w1 (cfg s) [spawn j'] true (runs s)) in *.
    assert (∀ j : job M, jstatus (ctx j) = Running → is_cancelled j = false) as Hcan.
    { intros j Hj. unfold is_cancelled. by rewrite Hj. }
    assert ((step s1 (EvTask 0 u)).1 = Sys (w_send w1 (RunHook (jid j') true)) (cfg s) [Task j' j' Hooked] true (runs s)) as E1.
    { rewrite (step_task s1 0 (spawn j') u); [done|done|done|]. by apply Hcan. }
    set (w2 := w_send w1 (RunHook (jid j') true)) in *.
    set (s2 := Sys w2 (cfg s) [Task j' j' Hooked] true (runs s)) in *.
    assert ((step s2 (EvTask 0 u)).1 = Sys w2 (cfg s) [Task j' (bump j') InUser] true (runs s ++ [bump j'])) as E2.
    { rewrite (step_task s2 0 (Task j' j' Hooked) u); [done|done|done|]. by apply Hcan. }
    set (s3 := Sys w2 (cfg s) [Task j' (bump j') InUser] true (runs s ++ [bump j'])) in *.
    set (je := set_data (bump j') (ur_data u)).
    set (w4 := w_send w2 (RunHook (jid j') true)).
    assert ((step s3 (EvTask 0 u)).1 = Sys w4 (cfg s) [Task j' je AfterHook] true (runs s ++ [bump j'])) as E3.
    { rewrite (step_task s3 0 (Task j' (bump j') InUser) u); [done|done|done|]. by apply Hcan. }
    set (s4 := Sys w4 (cfg s) [Task j' je AfterHook] true (runs s ++ [bump j'])) in *.
    assert (judge prof sched clock (reads w4) je u = (S (reads w4), VFinished je)) as Ej.
    { destruct Hsim as [Hn Hr]. unfold judge. change (jretry (ctx je)) with (jretry (ctx j')). rewrite Hr.
      unfold finish_of, tick_of. change (jtype (ctx je)) with (jtype (ctx j')). rewrite Hn, Hu. done. }
    set (w5 := do_finish name clock (w_reads w4 (S (reads w4))) je).
    assert ((step s4 (EvTask 0 u)).1 = Sys w5 (cfg s) [] true (runs s ++ [bump j'])) as E4.
    { rewrite (step_task s4 0 (Task j' je AfterHook) u); [|done|done|by apply Hcan]. cbn [t_phase t_job].
      cbv zeta. cbn [sw s4]. unfold do_tail. rewrite Ej. done. }
    set (s5 := Sys w5 (cfg s) [] true (runs s ++ [bump j'])) in *.
    assert (jid je = y) as Hje by exact Hid.
    assert (∀ st, qlist w5 st = match st with Running => filter (λ x, x ≠ y) (qlist w1 Running)
                     | Finished => y :: qlist w1 Finished | _ => qlist w1 st end) as Hq5.
    { intros st. unfold w5. rewrite qlist_do_finish, Hje. by destruct st. }
    assert (∀ id, stored w5 id = if bool_decide (id = y) then Some (norm_job (fin je (now_ms clock (w_reads w4 (S (reads w4)))))) else stored w1 id) as Hst5.
    { intros id. unfold w5. rewrite stored_do_finish, Hje. destruct (bool_decide _); [done|]. done. }
    (* the arrival *)
    assert (∃ w6, (step s5 (EvEnqueue jy new_re_run)).1 = Sys w6 (cfg s) [] true (runs s ++ [bump j']) ∧
      (∀ st, qlist w6 st = if bool_decide (st = Queued) then y :: qlist w5 Queued else qlist w5 st) ∧
      (∀ id, stored w6 id = if bool_decide (id = y) then Some (norm_job (enq jy (now_ms clock w5))) else stored w5 id))
      as (w6 & E5 & Hq6 & Hst6).
    { exists (do_enqueue name clock (w_put w5 jy) jy). split.
      - rewrite (step_enqueue prof sched name clock s5 jy new_re_run eq_refl). cbn [fst sw cfg tasks runs s5].
        unfold do_run. rewrite Hst5, Hjy, bool_decide_true by done. done.
      - split.
        + intros st. rewrite qlist_do_enqueue, !qlist_put, Hjy. done.
        + intros id. rewrite stored_do_enqueue, Hjy. destruct (bool_decide_reflect (id = y)); [done|].
          rewrite stored_put, Hjy. by rewrite bool_decide_false. }
    assert (go s (one_round u jy) = Sys w6 (cfg s) [] true (runs s ++ [bump j'])) as Hgo.
    { unfold one_round. rewrite go_cons, Hs1. cbn [fst]. rewrite go_cons, E1, go_cons, E2, go_cons, E3, go_cons, E4, go_cons, E5. done. }
    cbv zeta. rewrite Hgo.
    assert (rev (qlist w6 Queued) = z :: F ++ [y]) as Hq6'.
    { rewrite Hq6, bool_decide_true by done. cbn [rev]. rewrite Hq5, Hq1. done. }
    split; [|split; [|split; [|split]]].
    - split; [rewrite <-Hgo; by eapply all_at_go|]. cbn [alive cfg tasks sw].
      split; [done|]. split; [done|]. split; [done|].
      split. { rewrite Hq6, bool_decide_false, Hq5, Hr1 by done. rewrite filter_cons, decide_False by (intros H; by apply H). done. }
      split; [done|]. split; [done|].
      intros id Hin. rewrite Hst6. destruct (bool_decide_reflect (id = y)) as [->|Hne].
      + exists (norm_job (enq jy (now_ms clock w5))). split; [done|]. split; cbn; [by rewrite Hty|by rewrite Hre].
      + rewrite Hst5, bool_decide_false, Hst1 by done. apply Hst.
        rewrite (Permutation_rev (qlist _ _)), Hq. rewrite (Permutation_rev (qlist _ _)), Hq6' in Hin. clear -Hin. set_solver.
    - exists (bump j'). split; done.
    - unfold one_round. cbn [Spec.free_ticks].
      assert (free_slots name s = 1%nat) as ->. { unfold free_slots. by rewrite Ha, Hmx, Hrun. } done.
    - done.
    - done.
  Qed.

  (** [n] rounds; each arrival is the job that just finished, submitted again. *)
  Fixpoint rounds (u : user_result M) (mk : string → job M) (n : nat) (y z : string) : list (event M) :=
    match n with
    | O => []
    | S n' => one_round u (mk y) ++ rounds u mk n' z y
    end.

  Lemma free_ticks_app (s : sys) es es' :
    free_ticks s (es ++ es') = (free_ticks s es + free_ticks (go s es) es')%nat.
  Proof.
    revert s. induction es as [|e es IH]; intros s; [done|]. cbn [app Spec.free_ticks]. rewrite IH, go_cons. lia.
  Qed.

  Lemma starve (s : sys) u mk n y z F :
    cyc s y z F → ur_failed u = false →
    (∀ id, jid (mk id) = id ∧ simple (mk id) ∧ jstatus (ctx (mk id)) = Queued) →
    let s' := go s (rounds u mk n y z) in
    (∃ rs, length rs = n ∧ runs s' = runs s ++ rs ∧ ∀ r, r ∈ rs → jid r = y ∨ jid r = z) ∧
    free_ticks s (rounds u mk n y z) = n ∧ ok_hist s (rounds u mk n y z) ∧
    ∀ id, id ∈ F → id ∈ qlist (sw s') Queued ∧ id ≠ y ∧ id ≠ z.
  Proof.
    intros Hc Hu Hmk. revert s y z Hc. induction n as [|n IH]; intros s y z Hc; cbn zeta.
    { cbn [rounds]. change (go s []) with s. split; [exists []; by rewrite app_nil_r; set_solver|].
      split; [done|]. split; [done|].
      destruct Hc as (Hall & _ & _ & _ & _ & Hq & _). intros id Hin.
      pose proof (all_at_nodup name s Hall) as Hnd. rewrite (Permutation_rev (qlist _ _)), Hq in Hnd |- *.
      split; [set_solver|]. apply list.NoDup_cons in Hnd as [H1 H2]. apply NoDup_app in H2 as (_ & H3 & _).
      split; [set_solver|]. intros ->. apply (H3 z Hin). set_solver. }
    cbn [rounds]. destruct (Hmk y) as (H1 & H2 & H3).
    destruct (cyc_round s y z F u (mk y) Hc Hu H1 H2 H3) as (Hc' & (r & Hr & Hrs) & Hft & Hok & _).
    destruct (IH _ _ _ Hc') as ((rs & G1 & G2 & G3) & G4 & G5 & G6).
    rewrite go_app. split; [|split; [|split]].
    - exists (r :: rs). split; [cbn; lia|]. split; [rewrite G2, Hrs, <-app_assoc; done|].
      intros r' Hr'. apply elem_of_cons in Hr' as [->|Hr']; [by left|]. destruct (G3 r' Hr'); auto.
    - rewrite free_ticks_app, Hft, G4. done.
    - apply ok_hist_app. done.
    - intros id Hin. destruct (G6 id Hin) as (? & ? & ?). done.
  Qed.

  Definition simpleb (w : world) (id : string) : bool :=
    match stored w id with
    | Some j => match jtype (ctx j), jretry (ctx j) with Normal, None => true | _, _ => false end
    | None => false
    end.
  Lemma simple_all w :
    forallb (simpleb w) (qlist w Queued) = true →
    ∀ id, id ∈ qlist w Queued → ∃ j, stored w id = Some j ∧ simple j.
  Proof.
    intros H id Hin. rewrite forallb_forall in H. specialize (H id). rewrite <-elem_of_list_In in H.
    specialize (H Hin). unfold simpleb in H. destruct (stored w id) as [j|]; [|done]. exists j. split; [done|].
    unfold simple. by destruct (jtype (ctx j)), (jretry (ctx j)).
  Qed.

  (** *** From reachable states *)
  Notation after := (after prof sched name clock).
  Lemma tick_work es :
    let s := after es in let s' := after (es ++ [EvTick]) in
    ok_hist initial es → alive s = true → Z.of_nat (length (qlist (sw s) Queued)) <= i32_max →
    ∃ new : list (job M),
      tasks s' = tasks s ++ map (λ j, Task j j Spawned) new ∧
      qlist (sw s) Queued ≡ₚ qlist (sw s') Queued ++ map jid new ∧
      (length new <= free_slots name s)%nat ∧
      (∀ j', j' ∈ new → ∃ j k, stored (sw s) (jid j') = Some j ∧ data j' = data j ∧
         (reads (sw s) <= k < reads (sw s'))%nat ∧ due j (clock k)) ∧
      (length new = free_slots name s ∨
       ∀ id, id ∈ qlist (sw s') Queued → ∃ j k, stored (sw s) id = Some j ∧ stored (sw s') id = Some j ∧
         (reads (sw s) <= k < reads (sw s'))%nat ∧ ¬ due j (clock k)).
  Proof.
    intros s s' Hok Ha Hf. unfold s', after. rewrite go_snoc. fold (after es). fold s.
    destruct (tick_reach prof sched name clock s (all_at_after prof sched name clock es Hok) Ha Hf)
      as (_ & _ & _ & new & H1 & _ & H2 & H3 & H4 & H5).
    exists new. split; [exact H1|]. split; [exact H2|]. split; [exact H3|]. split; [|exact H5].
    intros j' Hj'. destruct (H4 j' Hj') as (j & k & E1 & E2 & E3 & E4 & E5).
    exists j, k. split; [done|]. split; [by rewrite E2|]. split; [lia|done].
  Qed.
  Lemma tick_order (rdy : string → bool) es :
    let s := after es in let s' := after (es ++ [EvTick]) in
    ok_hist initial es → alive s = true → (length (qlist (sw s) Queued) <= 20)%nat →
    (∀ id j, id ∈ qlist (sw s) Queued → stored (sw s) id = Some j →
       ∀ k, due j (clock k) ↔ rdy id = true) →
    let started := take (free_slots name s) (filter (λ id, rdy id = true) (rev (qlist (sw s) Queued))) in
    map tid (tasks s') = map tid (tasks s) ++ started ∧
    rev (qlist (sw s') Queued) = filter (λ id, id ∉ started) (rev (qlist (sw s) Queued)).
  Proof.
    intros s s' Hok Ha Hf Hr. unfold s', after. rewrite go_snoc. fold (after es). fold s.
    exact (tick_fifo prof sched name clock rdy s (all_at_after prof sched name clock es Hok) Ha Hf Hr).
  Qed.
  Lemma no_starvation_after es0 es id j :
    let s := after es0 in
    ok_hist initial (es0 ++ es) → id ∈ qlist (sw s) Queued → stored (sw s) id = Some j →
    (∀ k, (reads (sw s) <= k)%nat → due j (clock k)) → Forall (λ e, ¬ submits id e ∧ e ≠ EvCancel id) es →
    Z.of_nat (length (qlist (sw s) Queued) + arrivals prof sched name clock s es) <= i32_max →
    (length (qlist (sw s) Queued) + arrivals prof sched name clock s es <= free_ticks s es)%nat →
    ∃ es1 es2, es = es1 ++ es2 ∧ id ∈ qlist (sw (after (es0 ++ es1))) Running.
  Proof.
    intros s Hok Hin Hs Hd HE Hm Hf. apply ok_hist_app in Hok as [Hok0 Hok].
    destruct (no_starvation prof sched name clock es s id j) as (es1 & es2 & E & Hr); try done.
    { by apply all_at_after. }
    exists es1, es2. split; [done|]. unfold after. rewrite go_app. exact Hr.
  Qed.
  Lemma config_applies (s : sys) c es :
    alive s = true → Forall keeps_cfg es →
    let s1 := (step s (EvConfig c)).1 in
    (sw s1 = sw s ∧ tasks s1 = tasks s ∧ runs s1 = runs s ∧ alive s1 = true) ∧
    cfg (go s1 es) = c ∧
    (max_processing_jobs c = 0%nat → alive (go s1 es) = true → (step (go s1 es) EvTick).1 = go s1 es).
  Proof.
    intros Ha HE s1. unfold s1. rewrite (step_config s c Ha).
    assert (cfg (go (Sys (sw s) c (tasks s) true (runs s)) es) = c) as Hc by by rewrite cfg_stays.
    split; [done|]. split; [done|]. intros H0 Hal. apply tick_full; [done|]. rewrite Hc, H0. lia.
  Qed.
  Lemma config_ticks es0 c es :
    let s := after (es0 ++ EvConfig c :: es) in let s' := after (es0 ++ EvConfig c :: es ++ [EvTick]) in
    ok_hist initial (es0 ++ EvConfig c :: es) → alive (after es0) = true → alive s = true →
    Forall keeps_cfg es →
    Z.of_nat (length (qlist (sw s) Queued)) <= i32_max →
    ∃ new : list (job M), tasks s' = tasks s ++ map (λ j, Task j j Spawned) new ∧
      (length new <= max_processing_jobs c - length (qlist (sw s) Running))%nat ∧
      (length new = max_processing_jobs c - length (qlist (sw s) Running) ∨
       ∀ id, id ∈ qlist (sw s') Queued → ∃ j k, stored (sw s) id = Some j ∧
         (reads (sw s) <= k < reads (sw s'))%nat ∧ ¬ due j (clock k))%nat.
  Proof.
    intros s s' Hok Ha0 Ha HE Hf.
    assert (cfg s = c) as Hc.
    { unfold s, after. rewrite go_app, go_cons, cfg_stays by done. rewrite step_config by done. done. }
    destruct (tick_work (es0 ++ EvConfig c :: es) Hok Ha Hf) as (new & H1 & _ & H2 & _ & H3).
    fold s in H1, H2, H3. unfold free_slots in H2, H3. rewrite Ha, Hc in H2, H3.
    assert (after ((es0 ++ EvConfig c :: es) ++ [EvTick]) = s') as E by (unfold s'; by rewrite <-app_assoc).
    rewrite E in *. exists new. split; [done|]. split; [done|].
    destruct H3 as [H3|H3]; [by left|]. right. intros id Hin. destruct (H3 id Hin) as (j & k & G1 & _ & G2). eauto.
  Qed.
End starve.
