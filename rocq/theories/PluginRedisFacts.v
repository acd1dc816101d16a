(** A queue on Redis shows plugins what a queue on the in-memory store shows them. *)
From Verif Require Import Spec JsonFacts BackendFacts RedisFacts WorldFacts MicroFacts SpecPluginRedis RedisLive HistFacts
  PluginFacts PluginOrder PluginWait FrontRedis.
Open Scope Z_scope.

Section plugin.
  Context {M : Type} `{SM : Serde M}.
  Context (prof : profile).
  Context (sched : string → option (time → option time)).
  Context (name : string).
  Context (clock : nat → time).
  Context (ty : nat).
  Notation rstep := (sys_step prof sched name (redis_h clock)).
  Notation pafter := (pafter prof sched name clock ty).
  Notation after := (rp_after prof sched name clock ty).
  Notation prstep := (rpsys_step prof sched name clock ty).

  Definition same_ps (s : psys M) (r : rpsys M) : Prop :=
    same_sys name (p_sys s) (rp_sys r) ∧ p_center s = rp_center r ∧ p_waits s = rp_waits r ∧ p_trace s = rp_trace r.
  Lemma same_log (s : sys world M) (r : sys rworld M) : same_sys name s r → log (sw s) = rlog (sw r).
  Proof. by intros ((_&_&_&?)&_). Qed.
  Lemma blocked_same s r e : same_ps s r → blocked s e = r_blocked r e.
  Proof. intros ((_&_&H&_)&H1&H2&_). unfold blocked, r_blocked. by rewrite H, H1, H2. Qed.
  Lemma starts_same s r e : same_ps s r → starts s e = r_starts r e.
  Proof. intros ((_&_&H&H'&_)&H1&H2&_). unfold starts, r_starts. by rewrite H, H', H2. Qed.
  Lemma psys_step_same s r e : same_ps s r → same_ps (psys_step prof sched name clock ty s e) (prstep r e).
  Proof.
    intros H. pose proof H as (Hq & Hc & Hw & Ht). destruct e as [e|p|ty' m| |i ok]; cbn [psys_step rpsys_step].
    - rewrite <-(blocked_same _ _ e H). destruct (blocked s e); [done|]. cbv zeta.
      destruct (step_same prof sched name clock (p_sys s) (rp_sys r) e Hq) as [_ Hs].
      rewrite <-(starts_same _ _ e H), <-Hc, <-Hw, <-Ht, <-(same_log _ _ Hq), <-(same_log _ _ Hs).
      assert (tasks (p_sys s) = tasks (rp_sys r)) as <- by apply Hq.
      assert (tasks (sys_step prof sched name (mem_h clock) (p_sys s) e).1 = tasks (rstep (rp_sys r) e).1) as <- by apply Hs.
      destruct e; try (destruct (post _ _ _)); done.
    - rewrite <-Hc, <-Hw, <-Ht. done.
    - rewrite <-Hc, <-Hw, <-Ht. by destruct (post _ _ _).
    - rewrite <-Hc, <-Hw, <-Ht. by destruct (handle _).
    - rewrite <-Hc, <-Hw, <-Ht. by destruct (poll _ _ _).
  Qed.
  Lemma psys_run_same es s r : same_ps s r →
    same_ps (psys_run prof sched name clock ty s es) (rpsys_run prof sched name clock ty r es).
  Proof. revert s r. induction es as [|e es IH]; intros s r H; [done|]. cbn. by apply IH, psys_step_same. Qed.
  Lemma psys_init_same : same_ps psys_init rpsys_init.
  Proof. split; [|done]. split; [apply redis_rel_empty|done]. Qed.
  Lemma pafter_same es : same_ps (pafter es) (after es).
  Proof. apply psys_run_same, psys_init_same. Qed.
  Lemma trace_same es : rp_trace (after es) = p_trace (pafter es).
  Proof. symmetry. apply pafter_same. Qed.
  Lemma tasks_same es : tasks (rp_sys (after es)) = tasks (p_sys (pafter es)).
  Proof. symmetry. apply pafter_same. Qed.
  Lemma pafter_view es :
    rp_trace (after es) = p_trace (pafter es) ∧ rp_center (after es) = p_center (pafter es) ∧
    rp_waits (after es) = p_waits (pafter es) ∧ shows_same name (p_sys (pafter es)) (rp_sys (after es)).
  Proof. destruct (pafter_same es) as (H & H1 & H2 & H3). do 3 (split; [done|]). by apply same_sys_view. Qed.

  Lemma after_snoc es e : after (es ++ [e]) = prstep (after es) e.
  Proof. unfold rp_after, rpsys_run. by rewrite fold_left_app. Qed.
  Lemma r_free_goes (s : rpsys M) e : r_blocked s e = false → rp_sys (prstep s (PEv e)) = (rstep (rp_sys s) e).1.
  Proof. intros H. cbn [rpsys_step]. rewrite H. cbv zeta. destruct e; try done; by destruct (post _ _ _). Qed.
  Lemma r_started es pre n id suf :
    rp_trace (after es) = pre ++ OStart n id :: suf →
    ∃ ps, (∃ pre1 pre2, pre = pre1 ++ OHandle n ty ps :: pre2 ∧ ps = registered pre1) ∧
      (about n pre = OSend n (ty, RunHook id true) :: OHandle n ty ps
         :: calls_to n (CallBefore id) (filter (meant_for ty) ps) ++ [OEnd n false] ∨
       ∃ called p todo, filter (meant_for ty) ps = called ++ p :: todo ∧
         about n pre = OSend n (ty, RunHook id true) :: OHandle n ty ps
           :: calls_to n (CallBefore id) (called ++ [p]) ++ [OEnd n true]).
  Proof. rewrite trace_same. apply started_after_hooks. Qed.
  Lemma r_own es :
    NoDup (waited (rp_trace (after es))) ∧
    omap (λ o, match o with OStart _ id => Some id | _ => None end) (rp_trace (after es)) =
    map jid (runs (rp_sys (after es))).
  Proof.
    rewrite trace_same. destruct (pafter_same es) as ((_&_&_&_&<-)&_).
    exact (conj (pi_nodup ty _ (pinv_after prof sched name clock ty es))
                (pi_runs ty _ (pinv_after prof sched name clock ty es))).
  Qed.
  Lemma r_story es n : story n (about n (rp_trace (after es))).
  Proof. rewrite trace_same. exact (c_story _ _ (pi_c ty _ (pinv_after prof sched name clock ty es)) n). Qed.
  Lemma r_never_after es n p id :
    Forall (λ e : pevent M, no_after_message e) es → OCall n p (CallAfter id) ∉ rp_trace (after es).
  Proof. rewrite trace_same. apply never_after. Qed.
  Lemma r_first_calls p es :
    pl_types p = [] → Forall (λ e : pevent M, one_process e ∧ e ≠ PRegister p) es →
    let tr := rp_trace (after (PRegister p :: es)) in
    (∀ n tm, OSend n tm ∈ tr → ∃ b, OEnd n b ∈ tr) →
    calls_of p tr = map (λ nm, (nm.1, call_of nm.2)) (sends tr).
  Proof. cbv zeta. rewrite trace_same. apply first_calls. Qed.

  Lemma queue_events_same es s r : same_ps s r →
    queue_events prof sched name clock ty s es = r_queue_events prof sched name clock ty r es.
  Proof.
    revert s r. induction es as [|e es IH]; intros s r H; [done|]. cbn [queue_events r_queue_events].
    rewrite (IH _ _ (psys_step_same s r e H)). f_equal. destruct e; try done. by rewrite (blocked_same _ _ _ H).
  Qed.
  Lemma r_sends es :
    Forall (λ e : pevent M, one_process e ∧ one_queue e) es →
    map snd (sends (rp_trace (after es))) =
    rlog (sw (sys_run prof sched name (redis_h clock) (sys_init rworld_empty) (r_queue_events prof sched name clock ty rpsys_init es))).
  Proof.
    intros H. rewrite trace_same, <-(queue_events_same es psys_init rpsys_init psys_init_same).
    assert (∀ l (s : sys world M) r, same_sys name s r →
      same_sys name (sys_run prof sched name (mem_h clock) s l) (sys_run prof sched name (redis_h clock) r l)) as Hrun.
    { induction l as [|e l IH]; intros s r Hs; [done|]. cbn. apply IH. by apply step_same. }
    rewrite <-(same_log _ _ (Hrun _ _ _ (proj1 psys_init_same))).
    rewrite <-(prun_queue prof sched name clock ty es psys_init).
    exact (prun_sends prof sched name clock ty es psys_init H eq_refl).
  Qed.

  Lemma r_who_waits es :
    let s := after es in
    ∃ no : nat → nat, ∀ i (t : task M), tasks (rp_sys s) !! i = Some t → waiting t →
      OSend (no i) (ty, RunHook (jid (t_job t)) true) ∈ rp_trace s ∧ no i ∉ waited (rp_trace s) ∧
      (∀ k t', tasks (rp_sys s) !! k = Some t' → waiting t' → no k = no i → k = i) ∧
      ∀ u, let s' := after (es ++ [PEv (EvTask i u)]) in
        (¬ ended (no i) (rp_trace s) → s' = s) ∧
        (ended (no i) (rp_trace s) → rp_sys s' = (rstep (rp_sys s) (EvTask i u)).1).
  Proof.
    cbv zeta. rewrite trace_same, tasks_same. destruct (who_blocked prof sched name clock ty es) as (no & H).
    exists no. intros i t Ht Hw. destruct (H i t Ht Hw) as (H1 & H2 & H3 & H4). split; [done|]. split; [done|]. split; [done|].
    intros u. destruct (H4 u) as [H5 H6]. rewrite after_snoc. rewrite (blocked_same _ _ _ (pafter_same es)) in H5, H6. split.
    - intros E. cbn [rpsys_step]. by rewrite (H5 E).
    - intros E. apply r_free_goes, (H6 E).
  Qed.
  Lemma r_others_go es (e : event M) :
    (∀ i u t, e = EvTask i u → tasks (rp_sys (after es)) !! i = Some t → ¬ waiting t) →
    rp_sys (after (es ++ [PEv e])) = (rstep (rp_sys (after es)) e).1.
  Proof.
    intros H. rewrite after_snoc. apply r_free_goes. rewrite <-(blocked_same _ _ _ (pafter_same es)). apply not_true_is_false.
    intros (i & u & t & n & E & Ht & Hw & _)%blocked_waits. rewrite tasks_same in H. by eapply H.
  Qed.
  Lemma r_centre_sys es ks : Forall next_one ks → rp_sys (after (es ++ ks)) = rp_sys (after es).
  Proof.
    induction ks as [|e ks IH] using rev_ind; intros H; [by rewrite app_nil_r|].
    apply Forall_app in H as [H1 H2]. apply Forall_cons_1 in H2 as [H2 _]. rewrite app_assoc, after_snoc, <-(IH H1).
    destruct H2 as [-> | ->]; cbn [rpsys_step]; [by destruct (handle _)|by destruct (poll _ _ _)].
  Qed.
  Lemma r_drained es : ∃ ks, Forall (λ e : pevent M, e = PHandle ∨ e = PPoll 0 true) ks ∧
    let s' := after (es ++ ks) in
    rp_sys s' = rp_sys (after es) ∧
    (∀ n tm, OSend n tm ∈ lately (rp_trace s') → ended n (rp_trace s')) ∧
    ∀ e, rp_sys (after (es ++ ks ++ [PEv e])) = (rstep (rp_sys (after es)) e).1.
  Proof.
    destruct (drained_free prof sched name clock ty es) as (ks & H1 & H2 & H3 & H4). exists ks. split; [done|].
    cbv zeta. rewrite trace_same. split; [by apply r_centre_sys|]. split; [done|].
    intros e. rewrite app_assoc, after_snoc, <-(r_centre_sys es ks H1). apply r_free_goes.
    rewrite <-(blocked_same _ _ _ (pafter_same (es ++ ks))). apply H4.
  Qed.
End plugin.
