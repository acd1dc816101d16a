(** Progress in endless fair executions. *)
From Verif Require Import SpecLive JsonFacts BackendFacts WorldFacts MicroFacts LifeFacts HistFacts
  SubmitFacts LifeProps ListFacts ApiFacts PickFacts StarveFacts FaultFacts OrphanFacts CrashFacts.

Section live.
  Context {M : Type} `{SM : Serde M} {SO : SerdeOk M}.
  Context (prof : profile).
  Context (sched : string → option (time → option time)).
  Context (name : string).
  Context (clock : nat → time).
  Notation h := (mem_h clock).
  Notation sys := (Sys.sys world M).
  Notation qlist := (qlist name).
  Notation stored := (@stored M SM).
  Notation step := (sys_step prof sched name h).
  Notation go := (sys_run prof sched name h).
  Notation after := (after prof sched name clock).
  Notation ok_hist := (ok_hist prof sched name clock).
  Notation free_slots := (free_slots name).
  Notation free_ticks := (free_ticks prof sched name clock).
  Notation arrivals := (arrivals prof sched name clock).
  Notation all_at := (all_at name).
  Notation at_ := (at_ name).

  (** *** One step *)
  Definition left_ (p : phase) : nat := match p with Spawned => 4 | Hooked => 3 | InUser => 2 | AfterHook => 1 end.
  Definition work (ts : list (task M)) : nat := sum_list (map (λ t, left_ (t_phase t)) ts).
  Lemma work_app a b : work (a ++ b) = (work a + work b)%nat.
  Proof. unfold work. by rewrite map_app, sum_list_with_app || (rewrite map_app; induction (map _ a); cbn; lia). Qed.
  Lemma work_nil ts : work ts = 0%nat → ts = [].
  Proof. destruct ts as [|t ts]; [done|]. cbn. destruct (t_phase t); cbn; lia. Qed.

  (** What a poll makes of a task. *)
  Definition next (t : task M) (u : user_result M) : option (task M) :=
    match t_phase t with
    | Spawned => if is_cancelled (t_job t) then None else Some (Task (t_orig t) (t_job t) Hooked)
    | Hooked => Some (Task (t_orig t) (set_ctx (t_job t) (set_run_count (ctx (t_job t)) (S (run_count (ctx (t_job t)))))) InUser)
    | InUser => Some (Task (t_orig t) (set_data (t_job t) (ur_data u)) AfterHook)
    | AfterHook => None
    end.
  Definition started (t : task M) : list (job M) :=
    match t_phase t with
    | Hooked => [set_ctx (t_job t) (set_run_count (ctx (t_job t)) (S (run_count (ctx (t_job t)))))]
    | _ => []
    end.
  Lemma step_poll (s : sys) i u t :
    alive s = true → tasks s !! i = Some t → alive (step s (EvTask i u)).1 = true →
    tasks (step s (EvTask i u)).1 = match next t u with Some t' => <[i := t']> (tasks s) | None => delete i (tasks s) end ∧
    runs (step s (EvTask i u)).1 = runs s ++ started t.
  Proof.
    intros Ha Hi. unfold sys_step. rewrite Ha. unfold commit. cbn [ev_prog]. rewrite Hi, run_bind.
    unfold task_step, next, started. destruct (t_phase t).
    - destruct (is_cancelled (t_job t)); cbn; done.
    - cbn. done.
    - cbn. done.
    - rewrite run_bind. destruct (run h (task_tail _ _ _ _ _ _) _) as [w [x| |]]; cbn; try done.
  Qed.
  Lemma step_nopoll (s : sys) e :
    calm e → alive s = true → (∀ i u, e = EvTask i u → tasks s !! i = None) → e ≠ EvTick →
    tasks (step s e).1 = tasks s ∧ runs (step s e).1 = runs s.
  Proof.
    intros Hc Ha Hi Ht. destruct e as [j ec|k|k|k|c'| |i u| | |e' n|]; try done.
    - by rewrite step_enqueue.
    - by rewrite step_cancel.
    - by rewrite step_get.
    - by rewrite step_retry.
    - by rewrite step_config.
    - unfold sys_step. rewrite Ha. unfold commit. cbn [ev_prog]. rewrite (Hi i u eq_refl). cbn. by rewrite app_nil_r.
  Qed.
  Lemma step_ticked (s : sys) :
    alive s = true → alive (step s EvTick).1 = true →
    ∃ js : list (job M), tasks (step s EvTick).1 = tasks s ++ map spawn js ∧ runs (step s EvTick).1 = runs s ∧
      (free_slots s = 0%nat → js = []).
  Proof.
    intros Ha. destruct (decide (free_slots s = 0)%nat) as [E|E].
    - rewrite tick_full; [|done|unfold Spec.free_slots in E; rewrite Ha in E; lia].
      exists []. cbn. by rewrite app_nil_r.
    - rewrite (step_tick prof sched name clock s Ha). cbv zeta. destruct (_.2) eqn:E2; cbn; [|done|done].
      intros _. eexists. split; [done|]. split; [done|]. by intros.
  Qed.
  Lemma kinds (s : sys) (e : event M) :
    (∃ i u t, e = EvTask i u ∧ tasks s !! i = Some t) ∨ e = EvTick ∨
    ((∀ i u, e = EvTask i u → tasks s !! i = None) ∧ e ≠ EvTick).
  Proof.
    destruct e as [j ec|k|k|k|c'| |i u| | |e' n|]; try (right; right; done); [by right; left|].
    destruct (tasks s !! i) as [t|] eqn:E; [left; eauto|]. right; right. split; [|done].
    by intros i' u' [= <- <-].
  Qed.
  Lemma work_insert i t t' ts : ts !! i = Some t → (left_ (t_phase t') < left_ (t_phase t))%nat →
    (work (<[i:=t']> ts) < work ts)%nat.
  Proof.
    intros Hi Hl. rewrite <-(take_drop_middle ts i t Hi) at 2. rewrite insert_take_drop by by eapply lookup_lt_Some.
    rewrite !work_app. cbn. unfold work. lia.
  Qed.
  Lemma work_delete i t ts : ts !! i = Some t → (work (delete i ts) < work ts)%nat.
  Proof.
    intros Hi. rewrite <-(take_drop_middle ts i t Hi) at 2. rewrite delete_take_drop.
    rewrite !work_app. cbn. assert (0 < left_ (t_phase t))%nat by (destruct (t_phase t); cbn; lia). unfold work. lia.
  Qed.
  Lemma work_poll (s : sys) i u t :
    alive s = true → tasks s !! i = Some t → alive (step s (EvTask i u)).1 = true →
    (work (tasks (step s (EvTask i u)).1) < work (tasks s))%nat.
  Proof.
    intros Ha Hi Ha'. destruct (step_poll s i u t Ha Hi Ha') as [-> _]. unfold next.
    destruct (t_phase t) eqn:Ep; [destruct (is_cancelled _)|..].
    all: (apply (work_delete i t); done) || (apply (work_insert i t); [done|rewrite Ep; cbn; lia]).
  Qed.
  Lemma work_step (s : sys) e :
    calm e → alive s = true → alive (step s e).1 = true → ¬ (e = EvTick ∧ (0 < free_slots s)%nat) →
    (work (tasks (step s e).1) <= work (tasks s))%nat.
  Proof.
    intros Hc Ha Ha' Hf. destruct (kinds s e) as [(i&u&t&->&Hi)|[->|[H1 H2]]].
    - apply Nat.lt_le_incl, (work_poll s i u t); done.
    - destruct (step_ticked s Ha Ha') as (js & -> & _ & H). rewrite H; [cbn; rewrite app_nil_r; lia|].
      destruct (free_slots s); [done|]. exfalso. apply Hf. split; [done|lia].
    - destruct (step_nopoll s e Hc Ha H1 H2) as [-> _]. lia.
  Qed.
  (** A task stays as it is until it is polled. *)
  Lemma stays_step (s : sys) e t :
    calm e → alive s = true → alive (step s e).1 = true → NoDup (map tid (tasks s)) → t ∈ tasks s →
    (∃ i u, e = EvTask i u ∧ tasks s !! i = Some t) ∨ t ∈ tasks (step s e).1.
  Proof.
    intros Hc Ha Ha' Hnd Ht. destruct (kinds s e) as [(i&u&t'&->&Hi)|[->|[H1 H2]]].
    - destruct (decide (tid t' = tid t)) as [E|E].
      + left. exists i, u. split; [done|]. apply elem_of_list_lookup in Ht as [i' Hi'].
        assert (i' = i) as ->; [|congruence].
        apply (NoDup_lookup (map tid (tasks s)) _ _ (tid t)); [done|..]; rewrite list_lookup_fmap.
        * by rewrite Hi'.
        * rewrite Hi. cbn. by rewrite E.
      + right. destruct (step_poll s i u t' Ha Hi Ha') as [-> _].
        assert (t ∈ delete i (tasks s)) as Hd.
        { rewrite <-(take_drop_middle (tasks s) i t' Hi) in Ht. rewrite delete_take_drop.
          apply elem_of_app in Ht as [Ht|Ht]; [apply elem_of_app; by left|].
          apply elem_of_cons in Ht as [->|Ht]; [done|]. apply elem_of_app; by right. }
        destruct (next t' u); [|done]. rewrite insert_take_drop by by eapply lookup_lt_Some.
        rewrite delete_take_drop in Hd. apply elem_of_app in Hd as [Hd|Hd]; apply elem_of_app; [by left|right].
        by apply elem_of_cons; right.
    - right. destruct (step_ticked s Ha Ha') as (js & -> & _). apply elem_of_app. by left.
    - right. by destruct (step_nopoll s e Hc Ha H1 H2) as [-> _].
  Qed.
  Lemma runs_step (s : sys) e : calm e → alive s = true → alive (step s e).1 = true → runs s `prefix_of` runs (step s e).1.
  Proof.
    intros Hc Ha Ha'. destruct (kinds s e) as [(i&u&t'&->&Hi)|[->|[H1 H2]]].
    - destruct (step_poll s i u t' Ha Hi Ha') as [_ ->]. by eexists.
    - destruct (step_ticked s Ha Ha') as (js & _ & -> & _). done.
    - by destruct (step_nopoll s e Hc Ha H1 H2) as [_ ->].
  Qed.

  (** Nothing waits, nothing runs. *)
  Definition idle (L : nat) (s : sys) : Prop :=
    alive s = true ∧ tasks s = [] ∧ max_processing_jobs (cfg s) = L ∧ qlist (sw s) Queued = [].
  Lemma idle_step L (s : sys) e : all_at s → idle L s → e = EvTick ∨ (∃ i u, e = EvTask i u) → idle L (step s e).1.
  Proof.
    intros Ha (H1 & H2 & H3 & H4) [->|(i & u & ->)].
    - destruct (tick_reach prof sched name clock s Ha H1) as (G1 & G2 & _ & new & G3 & _ & G4 & _).
      { unfold fits. by rewrite H4. }
      rewrite H4 in G4. apply Permutation_nil_l in G4.
      assert (qlist (sw (step s EvTick).1) Queued = [] ∧ new = []) as [E1 ->].
      { destruct (qlist (sw (step s EvTick).1) Queued); [|done]. by destruct new. }
      unfold idle. rewrite G1, G2, G3, H2, H3, E1. done.
    - unfold sys_step. rewrite H1. unfold commit. cbn [ev_prog]. rewrite H2, lookup_nil. unfold idle. cbn -[Spec.qlist]. done.
  Qed.

  (** *** Endless executions *)
  Section run.
    Context (ev : nat → event M).
    Notation s n := (moment prof sched name clock ev n).
    Context (Hh : healthy prof sched name clock ev).
    Context (Hticks : ticking ev).
    Context (Hpolls : polling prof sched name clock ev).

    Lemma s_S n : s (S n) = (step (s n) (ev n)).1.
    Proof.
      unfold moment. rewrite seq_S, map_app, app_comm_cons. cbn [map]. rewrite (snoc_after prof sched name clock). done.
    Qed.
    Lemma s_add n m : s (n + m)%nat = go (s n) (map ev (seq n m)).
    Proof.
      unfold moment. rewrite seq_app, map_app, app_comm_cons, (app_after prof sched name clock). done.
    Qed.
    Lemma calm_n n : calm (ev n). Proof. apply Hh. Qed.
    Lemma alive_n n : alive (s n) = true. Proof. apply Hh. Qed.
    Lemma alive_step n : alive (step (s n) (ev n)).1 = true. Proof. rewrite <-s_S. apply Hh. Qed.
    Lemma ok_n n : ok_hist initial (EvStart :: map ev (seq 0 n)). Proof. apply Hh. Qed.
    Lemma at_n n : all_at (s n). Proof. apply (all_at_after prof sched name clock), ok_n. Qed.
    Lemma nodup_n n : NoDup (map tid (tasks (s n))). Proof. apply no_overlap, ok_n. Qed.
    Lemma served_n n id : id ∈ qlist (sw (s n)) Running → tasks_of id (s n) ≠ [].
    Proof.
      apply (picked_served prof sched name clock (map ev (seq 0 n))); [apply ok_n| |apply alive_n].
      apply list.Forall_forall. intros e He. apply elem_of_list_fmap in He as (k & -> & _). apply calm_n.
    Qed.

    Definition opens (k : nat) : Prop := ev k = EvTick ∧ (0 < free_slots (s k))%nat.
    Lemma work_until n d : (∃ k, (n <= k < n + d)%nat ∧ opens k) ∨ (work (tasks (s (n + d))) <= work (tasks (s n)))%nat.
    Proof.
      induction d as [|d [(k&Hk&Ho)|IH]].
      - right. by rewrite Nat.add_0_r.
      - left. exists k. split; [lia|done].
      - destruct (match ev (n + d)%nat with EvTick => true | _ => false end) eqn:Et.
        + destruct (decide (0 < free_slots (s (n + d)))%nat) as [Hf|Hf].
          * left. exists (n + d)%nat. split; [lia|]. split; [|done]. by destruct (ev (n + d)%nat).
          * right. rewrite Nat.add_succ_r, s_S. etrans; [apply work_step|done];
              [apply calm_n|apply alive_n|apply alive_step|by intros [_ ?]].
        + right. rewrite Nat.add_succ_r, s_S. etrans; [apply work_step|done];
            [apply calm_n|apply alive_n|apply alive_step|]. intros [E _]. by rewrite E in Et.
    Qed.
    Lemma opens_again n : ∃ m, (n <= m)%nat ∧ opens m.
    Proof.
      remember (work (tasks (s n))) as x eqn:Ex. revert n Ex.
      induction (lt_wf x) as [x _ IH]. intros n ->.
      destruct (tasks (s n)) as [|t ts] eqn:Et.
      - destruct (Hticks n) as (m & Hm & Hev).
        destruct (work_until n (m - n)) as [(k&Hk&Ho)|Hw]; [exists k; split; [lia|done]|].
        replace (n + (m - n))%nat with m in Hw by lia.
        exists m. split; [done|]. split; [done|].
        assert (tasks (s m) = []) as Ht. { apply work_nil. rewrite Et in Hw. change (work []) with 0%nat in Hw. lia. }
        assert (qlist (sw (s m)) Running = []) as Hr.
        { destruct (qlist (sw (s m)) Running) as [|id l] eqn:El; [done|]. exfalso.
          apply (served_n m id); [rewrite El; left|]. unfold tasks_of. by rewrite Ht. }
        unfold Spec.free_slots. rewrite alive_n, Hr. cbn [length]. destruct (Hh m) as (_&_&H1&_). lia.
      - destruct (Hpolls n t) as (m & i & u & t' & Hm & Hev & Hi & _); [rewrite Et; left|].
        destruct (work_until n (m - n)) as [(k&Hk&Ho)|Hw]; [exists k; split; [lia|done]|].
        replace (n + (m - n))%nat with m in Hw by lia.
        pose proof (alive_step m) as Ha'. rewrite Hev in Ha'.
        pose proof (work_poll (s m) i u t' (alive_n m) Hi Ha') as Hp.
        destruct (IH (work (tasks (s (S m))))) with (n := S m) as (k & Hk & Ho); [|done|].
        + rewrite s_S, Hev. rewrite <-Et. lia.
        + exists k. split; [lia|done].
    Qed.

    Lemma free_ticks_app st es es' : free_ticks st (es ++ es') = (free_ticks st es + free_ticks (go st es) es')%nat.
    Proof.
      revert st. induction es as [|e es IH]; intros st; [done|]. cbn [app Spec.free_ticks]. rewrite IH. 
      change (go st (e :: es)) with (go (step st e).1 es). lia.
    Qed.
    Lemma many_opens n K : ∃ d, (K <= free_ticks (s n) (map ev (seq n d)))%nat.
    Proof.
      induction K as [|K [d IH]]; [exists 0%nat; lia|].
      destruct (opens_again (n + d)) as (m & Hm & Ho1 & Ho2).
      exists (S (m - n)). rewrite seq_S, map_app, free_ticks_app. cbn [map Spec.free_ticks].
      rewrite <-s_add. replace (n + (m - n))%nat with m by lia. rewrite Ho1.
      replace (m - n)%nat with (d + (m - n - d))%nat by lia.
      rewrite seq_app, map_app, free_ticks_app. lia.
    Qed.

    (** A task is polled, unchanged. *)
    Lemma polled n t : t ∈ tasks (s n) →
      ∃ m i u, (n <= m)%nat ∧ ev m = EvTask i u ∧ tasks (s m) !! i = Some t.
    Proof.
      intros Ht. destruct (Hpolls n t Ht) as (m & i & u & t' & Hm & Hev & Hi & Htid).
      assert (∀ d, (∃ k i u, (n <= k < n + d)%nat ∧ ev k = EvTask i u ∧ tasks (s k) !! i = Some t) ∨ t ∈ tasks (s (n + d)%nat)) as Hd.
      { induction d as [|d [(k&i1&u1&Hk&H)|IH]].
        - right. by rewrite Nat.add_0_r.
        - left. exists k, i1, u1. split; [lia|done].
        - destruct (stays_step (s (n + d)%nat) (ev (n + d)%nat) t) as [(i1&u1&H1&H2)|H1];
            [apply calm_n|apply alive_n|apply alive_step|apply nodup_n|done| |].
          + left. exists (n + d)%nat, i1, u1. split; [lia|done].
          + right. rewrite Nat.add_succ_r, s_S. done. }
      destruct (Hd (m - n)%nat) as [(k&i1&u1&Hk&H1&H2)|H1].
      - exists k, i1, u1. split; [lia|done].
      - replace (n + (m - n))%nat with m in H1 by lia. exists m, i, u. split; [done|]. split; [done|].
        apply elem_of_list_lookup in H1 as [i' Hi'].
        assert (i' = i) as ->; [|done].
        apply (NoDup_lookup (map tid (tasks (s m))) _ _ (tid t)); [apply nodup_n|..]; rewrite list_lookup_fmap.
        + by rewrite Hi'.
        + rewrite Hi. cbn. by rewrite Htid.
    Qed.
    Lemma runs_le n m : (n <= m)%nat → runs (s n) `prefix_of` runs (s m).
    Proof.
      intros H. replace m with (n + (m - n))%nat by lia. induction (m - n)%nat as [|d IH]; [by rewrite Nat.add_0_r|].
      etrans; [exact IH|]. rewrite Nat.add_succ_r, s_S. apply runs_step; [apply calm_n|apply alive_n|apply alive_step].
    Qed.
    Lemma runs_of_le id n m : (n <= m)%nat → (length (runs_of id (s n)) <= length (runs_of id (s m)))%nat.
    Proof.
      intros H. destruct (runs_le n m H) as [l E]. unfold runs_of. rewrite E, list.filter_app, app_length. lia.
    Qed.
    Lemma poll_step n t : t ∈ tasks (s n) →
      ∃ m u, (n <= m)%nat ∧ runs (s (S m)) = runs (s m) ++ started t ∧
        match next t u with Some t' => t' ∈ tasks (s (S m)) | None => tasks_of (tid t) (s (S m)) = [] end.
    Proof.
      intros Ht. destruct (polled n t Ht) as (m & i & u & Hm & Hev & Hi).
      pose proof (alive_step m) as Ha'. rewrite Hev in Ha'.
      destruct (step_poll (s m) i u t (alive_n m) Hi Ha') as [H1 H2].
      exists m, u. split; [done|]. rewrite s_S, Hev. split; [done|].
      destruct (next t u) as [t'|].
      - rewrite H1. apply elem_of_list_lookup. exists i. apply list_lookup_insert. by eapply lookup_lt_Some.
      - unfold tasks_of. rewrite H1. pose proof (nodup_n m) as Hnd.
        rewrite <-(take_drop_middle (tasks (s m)) i t Hi) in Hnd. rewrite delete_take_drop.
        rewrite map_app in Hnd. cbn [map] in Hnd. apply NoDup_app in Hnd as (_ & Hn1 & Hn2).
        apply list.NoDup_cons in Hn2 as [Hn2 _].
        rewrite list.filter_app. assert (∀ l : list (task M), tid t ∉ map tid l → filter (λ t0, tid t0 = tid t) l = []) as Hf.
        { intros l Hl. induction l as [|x l IH]; [done|]. cbn [map] in Hl. apply not_elem_of_cons in Hl as [Hx Hl].
          rewrite filter_cons_False by congruence. by apply IH. }
        rewrite !Hf; [done|done|]. intros Hin. apply (Hn1 (tid t) Hin). left.
    Qed.
    Lemma ok_task n t : t ∈ tasks (s n) → task_ok t.
    Proof.
      intros Ht. apply elem_of_list_lookup in Ht as [i Hi].
      destruct (at_task_of name (s n) i t (at_n n) Hi) as (_ & _ & H). done.
    Qed.
    Lemma executes n t : t ∈ tasks (s n) → t_phase t = Spawned →
      ∃ m t', (n <= m)%nat ∧ (length (runs_of (tid t) (s n)) < length (runs_of (tid t) (s m)))%nat ∧
        t' ∈ tasks (s m) ∧ tid t' = tid t.
    Proof.
      intros Ht Hp. pose proof (ok_task n t Ht) as (_ & Hst & Hj). rewrite Hp in Hj.
      destruct (poll_step n t Ht) as (m1 & u1 & Hm1 & Hr1 & H1). unfold next in H1. rewrite Hp in H1.
      assert (is_cancelled (t_job t) = false) as Hc.
      { rewrite Hj. unfold is_cancelled. rewrite Hst. done. }
      rewrite Hc in H1. destruct (poll_step _ _ H1) as (m2 & u2 & Hm2 & Hr2 & H2).
      eexists (S m2), _. split; [lia|]. split; [|split; [exact H2|done]]. pose proof (runs_of_le (tid t) n m2 ltac:(lia)) as Hle.
      unfold runs_of in *. rewrite Hr2, list.filter_app, app_length. unfold started. cbn [t_phase t_job].
      rewrite filter_cons_True by (cbn; unfold tid; by rewrite Hj). cbn [length]. lia.
    Qed.
    Lemma completes n t : t ∈ tasks (s n) → ∃ m, (n <= m)%nat ∧ tasks_of (tid t) (s m) = [].
    Proof.
      intros Ht. remember (left_ (t_phase t)) as x eqn:Ex. revert n t Ex Ht.
      induction (lt_wf x) as [x _ IH]. intros n t -> Ht.
      destruct (poll_step n t Ht) as (m & u & Hm & _ & Hn).
      destruct (next t u) as [t'|] eqn:E; [|exists (S m); split; [lia|done]].
      assert (tid t' = tid t ∧ (left_ (t_phase t') < left_ (t_phase t))%nat) as [H1 H2].
      { unfold next in E. destruct (t_phase t); [destruct (is_cancelled _)|..]; try done;
          injection E as <-; (split; [done|cbn; lia]). }
      destruct (IH _ H2 (S m) t' eq_refl Hn) as (m' & Hm' & H3). exists m'. split; [lia|]. by rewrite <-H1.
    Qed.

    Lemma waits n0 id j d :
      at_ (s n0) id (PQueued j) → (∀ n, (n0 <= n)%nat → ¬ submits id (ev n) ∧ ev n ≠ EvCancel id) →
      at_ (s (n0 + d)%nat) id (PQueued j) ∨
      ∃ k, (n0 <= k < n0 + d)%nat ∧ at_ (s k) id (PQueued j) ∧ id ∈ qlist (sw (s (S k))) Running.
    Proof.
      intros Hp Hd. induction d as [|d [IH|(k&Hk&H)]].
      - left. by rewrite Nat.add_0_r.
      - rewrite Nat.add_succ_r.
        destruct (waiting_step prof sched name clock (s (n0 + d)%nat) (ev (n0 + d)%nat) id j) as [H|H]; [apply at_n| |done| |..].
        + pose proof (ok_n (S (n0 + d))) as Ho. rewrite seq_S, map_app, app_comm_cons in Ho.
          apply (ok_snoc prof sched name clock) in Ho as [_ Ho]. exact Ho.
        + destruct (Hd (n0 + d)%nat ltac:(lia)) as [H1 H2]. by intros [?|?].
        + left. by rewrite s_S.
        + right. exists (n0 + d)%nat. split; [lia|]. split; [done|]. by rewrite s_S.
      - right. exists k. split; [lia|done].
    Qed.
    Lemma from_running k id j : at_ (s k) id (PQueued j) → id ∈ qlist (sw (s (S k))) Running →
      ∃ n1 n2, (k <= n1 <= n2)%nat ∧
        (length (runs_of id (s k)) < length (runs_of id (s n1)))%nat ∧ tasks_of id (s n2) = [].
    Proof.
      intros Hq Hrun.
      pose proof (served_n (S k) id Hrun) as Hts.
      destruct (tasks_of id (s (S k))) as [|t ts] eqn:Et; [done|].
      assert (t ∈ tasks_of id (s (S k))) as Ht by (rewrite Et; left).
      unfold tasks_of in Ht. apply elem_of_list_filter in Ht as [Htid Ht].
      assert (t_phase t = Spawned) as Hsp.
      { destruct Hq as [(_ & _ & _ & Hno) _]. pose proof Ht as Ht'. rewrite s_S in Ht'.
        assert (∀ t', t' ∈ tasks (s k) → tid t' ≠ id) as Hno'.
        { intros t' Ht1 Ht2. assert (t' ∈ tasks_of id (s k)) as Hx by (by apply elem_of_list_filter).
          rewrite Hno in Hx. by apply elem_of_nil in Hx. }
        destruct (kinds (s k) (ev k)) as [(i&u&t'&He&Hi)|[He|[H1 H2]]].
        - pose proof (alive_step k) as Ha'. rewrite He in Ha', Ht'.
          destruct (step_poll (s k) i u t' (alive_n k) Hi Ha') as [H1 _]. rewrite H1 in Ht'. exfalso.
          assert (tid t' ≠ id) as Hne by (eapply Hno', elem_of_list_lookup_2, Hi).
          destruct (next t' u) as [t1|] eqn:En.
          + apply elem_of_list_lookup in Ht' as [i' Hi']. destruct (decide (i = i')) as [<-|Hii].
            * rewrite list_lookup_insert in Hi' by (by eapply lookup_lt_Some). injection Hi' as ->.
              apply Hne. rewrite <-Htid. unfold next in En.
              destruct (t_phase t'); [destruct (is_cancelled _)|..]; try done; by injection En as <-.
            * rewrite list_lookup_insert_ne in Hi' by done. by eapply Hno', Htid; eapply elem_of_list_lookup_2.
          + eapply Hno'; [|exact Htid]. rewrite <-(take_drop_middle (tasks (s k)) i t' Hi).
            rewrite delete_take_drop in Ht'. apply elem_of_app in Ht' as [?|?]; apply elem_of_app; [by left|right].
            by apply elem_of_cons; right.
        - pose proof (alive_step k) as Ha'. rewrite He in Ha', Ht'.
          destruct (step_ticked (s k) (alive_n k) Ha') as (js & H1 & _). rewrite H1 in Ht'.
          apply elem_of_app in Ht' as [H2|H2]; [by apply Hno' in H2|].
          apply elem_of_list_fmap in H2 as (j1 & -> & _). done.
        - destruct (step_nopoll (s k) (ev k) (calm_n k) (alive_n k) H1 H2) as [H3 _]. rewrite H3 in Ht'.
          by apply Hno' in Ht'. }
      destruct (executes (S k) t Ht Hsp) as (n1 & t' & Hn1 & Hruns & Ht' & Htid'). rewrite Htid in Hruns.
      destruct (completes n1 t' Ht') as (n2 & Hn2 & Hc). rewrite Htid', Htid in Hc.
      pose proof (runs_of_le id k (S k) ltac:(lia)).
      exists n1, n2. split; [lia|]. split; [lia|done].
    Qed.
    Lemma fair_progress n0 id j B :
      id ∈ qlist (sw (s n0)) Queued → stored (sw (s n0)) id = Some j →
      (∀ k, (reads (sw (s n0)) <= k)%nat → due j (clock k)) →
      (∀ n, (n0 <= n)%nat → ¬ submits id (ev n) ∧ ev n ≠ EvCancel id) →
      Z.of_nat B <= i32_max →
      (∀ d, (length (qlist (sw (s n0)) Queued) + arrivals (s n0) (map ev (seq n0 d)) <= B)%nat) →
      ∃ n1 n2, (n0 <= n1 <= n2)%nat ∧
        (length (runs_of id (s n0)) < length (runs_of id (s n1)))%nat ∧ tasks_of id (s n2) = [].
    Proof.
      intros Hin Hs Hdue Hdist HB Harr.
      destruct (many_opens n0 B) as [d Hd].
      destruct (no_starvation prof sched name clock (map ev (seq n0 d)) (s n0) id j) as (es1 & es2 & E & Hr); try done.
      { apply at_n. }
      { pose proof (ok_n (n0 + d)) as Ho. rewrite seq_app, map_app, app_comm_cons in Ho.
        apply ok_hist_app in Ho as [_ Ho]. exact Ho. }
      { apply list.Forall_forall. intros e He. apply elem_of_list_fmap in He as (k & -> & Hk).
        apply Hdist. apply elem_of_seq in Hk. lia. }
      { specialize (Harr d). lia. }
      { specialize (Harr d). lia. }
      destruct (all_at_stored name (s n0) id (at_n n0) Hin) as (j0 & Hs0 & Hp). rewrite Hs0 in Hs. injection Hs as ->.
      assert (es1 = map ev (seq n0 (length es1))) as Ees.
      { assert (take (length es1) (map ev (seq n0 d)) = es1) as <- by (by rewrite E, take_app).
        assert (length es1 <= d)%nat. { apply (f_equal length) in E. rewrite map_length, seq_length, app_length in E. lia. }
        replace d with (length es1 + (d - length es1))%nat by lia. rewrite seq_app, map_app.
        rewrite take_app_alt by (by rewrite map_length, seq_length). by rewrite map_length, seq_length. }
      rewrite Ees, <-s_add in Hr.
      destruct (waits n0 id j (length es1) Hp Hdist) as [Hq|(k&Hk&Hq&Hrun)].
      { exfalso. destruct Hq as [(_ & _ & Hc & _) _]. apply cnt_pos in Hr. lia. }
      destruct (from_running k id j Hq Hrun) as (n1 & n2 & Hn & Hr1 & Hr2).
      pose proof (runs_of_le id n0 k ltac:(lia)). exists n1, n2. split; [lia|]. split; [lia|done].
    Qed.

    (** A tick with a free slot reads the clock, as long as something waits. *)
    Lemma opens_reads k id j : opens k → at_ (s k) id (PQueued j) → Z.of_nat (length (qlist (sw (s k)) Queued)) <= i32_max →
      (reads (sw (s k)) < reads (sw (s (S k))))%nat.
    Proof.
      intros [Ho Hf] Hp Hm.
      destruct (tick_work prof sched name clock (EvStart :: map ev (seq 0 k)) (ok_n k) (alive_n k) Hm)
        as (new & H1 & H2 & H3 & H4 & H5).
      rewrite (snoc_after prof sched name clock) in *. 
      change (after (EvStart :: map ev (seq 0 k))) with (s k) in *. rewrite <-Ho, <-s_S in *.
      destruct H5 as [H5|H5].
      - destruct new as [|j' new]; [cbn [length] in H5; lia|].
        destruct (H4 j' ltac:(left)) as (_ & r & _ & _ & Hr & _). lia.
      - destruct new as [|j' new].
        + destruct (H5 id) as (_ & r & _ & _ & Hr & _); [|lia].
          cbn [map] in H2. rewrite app_nil_r in H2. rewrite <-H2. apply cnt_pos. destruct Hp as [(_ & Hc & _) _]. lia.
        + destruct (H4 j' ltac:(left)) as (_ & r & _ & _ & Hr & _). lia.
    Qed.
    Lemma arrivals_app st es es' : arrivals st (es ++ es') = (arrivals st es + arrivals (go st es) es')%nat.
    Proof.
      revert st. induction es as [|e es IH]; intros st; [done|]. cbn [app Spec.arrivals]. rewrite IH.
      change (go st (e :: es)) with (go (step st e).1 es). lia.
    Qed.
    Lemma arrivals_len st es : (length (qlist (sw (go st es)) Queued) <= length (qlist (sw st) Queued) + arrivals st es)%nat.
    Proof.
      revert st. induction es as [|e es IH]; intros st; [cbn; lia|]. cbn [Spec.arrivals].
      change (go st (e :: es)) with (go (step st e).1 es). specialize (IH (step st e).1). lia.
    Qed.
    Lemma reads_le n m : (n <= m)%nat → (reads (sw (s n)) <= reads (sw (s m)))%nat.
    Proof.
      intros H. replace m with (n + (m - n))%nat by lia. induction (m - n)%nat as [|d IH]; [by rewrite Nat.add_0_r|].
      etrans; [exact IH|]. rewrite Nat.add_succ_r, s_S. apply rd_step.
    Qed.
    Lemma reads_grow n0 id j B K :
      at_ (s n0) id (PQueued j) → (∀ n, (n0 <= n)%nat → ¬ submits id (ev n) ∧ ev n ≠ EvCancel id) →
      Z.of_nat B <= i32_max →
      (∀ d, (length (qlist (sw (s n0)) Queued) + arrivals (s n0) (map ev (seq n0 d)) <= B)%nat) →
      (∃ k, (n0 <= k)%nat ∧ at_ (s k) id (PQueued j) ∧ id ∈ qlist (sw (s (S k))) Running) ∨
      ∃ d, (K <= reads (sw (s (n0 + d)%nat)))%nat ∧ at_ (s (n0 + d)%nat) id (PQueued j).
    Proof.
      intros Hp Hd HB Harr. induction K as [|K [IH|(d&HK&IH)]].
      - right. exists 0%nat. split; [lia|]. by rewrite Nat.add_0_r.
      - by left.
      - destruct (opens_again (n0 + d)) as (m & Hm & Ho).
        destruct (waits n0 id j (m - n0) Hp Hd) as [Hw|(k&Hk&Hw)]; [|left; exists k; split; [lia|done]].
        replace (n0 + (m - n0))%nat with m in Hw by lia.
        destruct (waits n0 id j (S m - n0) Hp Hd) as [Hw'|(k&Hk&Hw')]; [|left; exists k; split; [lia|done]].
        right. exists (S m - n0)%nat. replace (n0 + (S m - n0))%nat with (S m) in * by lia. split; [|done].
        assert (reads (sw (s m)) < reads (sw (s (S m))))%nat.
        { apply (opens_reads m id j); try done. specialize (Harr (m - n0)%nat).
          pose proof (arrivals_len (s n0) (map ev (seq n0 (m - n0)))) as Hl. rewrite <-s_add in Hl.
          replace (n0 + (m - n0))%nat with m in Hl by lia. lia. }
        pose proof (reads_le (n0 + d) m Hm). lia.
    Qed.
    Lemma fair_progress_later n0 id j B :
      id ∈ qlist (sw (s n0)) Queued → stored (sw (s n0)) id = Some j →
      (∃ k0, ∀ k, (k0 <= k)%nat → due j (clock k)) →
      (∀ n, (n0 <= n)%nat → ¬ submits id (ev n) ∧ ev n ≠ EvCancel id) →
      Z.of_nat B <= i32_max →
      (∀ d, (length (qlist (sw (s n0)) Queued) + arrivals (s n0) (map ev (seq n0 d)) <= B)%nat) →
      ∃ n1 n2, (n0 <= n1 <= n2)%nat ∧
        (length (runs_of id (s n0)) < length (runs_of id (s n1)))%nat ∧ tasks_of id (s n2) = [].
    Proof.
      intros Hin Hs [k0 Hdue] Hdist HB Harr.
      destruct (all_at_stored name (s n0) id (at_n n0) Hin) as (j0 & Hs0 & Hp). rewrite Hs0 in Hs. injection Hs as ->.
      destruct (reads_grow n0 id j B k0 Hp Hdist HB Harr) as [(k&Hk&Hq&Hr)|(d&Hk&Hq)].
      - destruct (from_running k id j Hq Hr) as (n1 & n2 & Hn & Hr1 & Hr2).
        pose proof (runs_of_le id n0 k ltac:(lia)). exists n1, n2. split; [lia|]. split; [lia|done].
      - destruct (fair_progress (n0 + d) id j B) as (n1 & n2 & Hn & Hr1 & Hr2); try done.
        + apply cnt_pos. destruct Hq as [(_ & Hc & _) _]. lia.
        + by destruct Hq as [(Hc & _) _].
        + intros k Hk'. apply Hdue. lia.
        + intros n Hn. apply Hdist. lia.
        + intros d'. specialize (Harr (d + d')%nat). rewrite seq_app, map_app, arrivals_app, <-s_add in Harr.
          pose proof (arrivals_len (s n0) (map ev (seq n0 d))) as Hl. rewrite <-s_add in Hl. lia.
        + pose proof (runs_of_le id n0 (n0 + d) ltac:(lia)). exists n1, n2. split; [lia|]. split; [lia|done].
    Qed.
  End run.
End live.
