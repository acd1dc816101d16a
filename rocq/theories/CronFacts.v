(** What happens after a failed execution with a retry policy; cron jobs. *)
From Coq Require Import Sorting.Sorted.
From Verif Require Import Spec JsonFacts BackendFacts WorldFacts MicroFacts LifeFacts HistFacts SubmitFacts LifeProps ListFacts ApiFacts PickFacts StarveFacts TimeFacts RetryFacts.

Lemma norm_cc_idem c : norm_cc (norm_cc c) = norm_cc c.
Proof. destruct c as [a b [e|]]; unfold norm_cc; cbn; by rewrite ?trunc_us_idem. Qed.

Section cron.
  Context {M : Type} `{SM : Serde M} {SO : SerdeOk M}.
  Context (prof : profile).
  Context (sched : string → option (time → option time)).
  Context (name : string).
  Context (clock : nat → time).
  Notation h := (mem_h clock).
  Notation qlist := (qlist name).
  Notation stored := (@stored M SM).
  Notation sys := (sys world M).
  Notation step := (sys_step prof sched name h).
  Notation go := (sys_run prof sched name h).
  Notation all_at := (all_at name).
  Notation at_ := (at_ name).
  Notation ok_hist := (ok_hist prof sched name clock).
  Notation after := (after prof sched name clock).
  Notation judge := (judge prof sched clock).
  Notation picked_at := (picked_at clock).

  (** *** After a failed execution that is to be retried *)
  Section again.
    Context (a : time).
    Let T := ScheduledAt a.
    Definition oag (new : list (job M)) : Prop :=
      (∀ r, head new = Some r → jtype (ctx r) = T) ∧ Forall (λ r : job M, noncron (ty r)) new.
    Definition qag (new : list (job M)) (k : nat) (t : job_type) (r : option retry) : Prop :=
      (new = [] → t = T) ∧ noncron t ∧ oag new.
    Definition rag (new : list (job M)) (k : nat) (t : job_type) (r : option retry) : Prop :=
      new ≠ [] ∧ noncron t ∧ oag new.

    Lemma again_run new k (r : job M) kp id k0 :
      qag new k (ty r) (re r) → picked_at k0 k r kp → jid r = id → rag (new ++ [r]) k (ty r) (re r).
    Proof.
      intros (H1&H2&H3&H4) _ _. split; [by destruct new|]. split; [done|]. split.
      - intros r2. destruct new as [|r3 new]; cbn; [|by apply H3]. intros [= <-]. by apply H1.
      - apply Forall_app. split; [done|]. by repeat constructor.
    Qed.
    Lemma again_judge new k (j : job M) u k1 v :
      rag new k (ty j) (re j) → judge k j u = (k1, v) →
      match v with
      | VRequeue nj => qag new (S k1) (ty (norm_job nj)) (re (norm_job nj))
      | VFailed nj => qag new (S k1) (ty (norm_job nj)) (re (norm_job nj))
      | VFinished nj => qag new (S k1) (ty (norm_job nj)) (re (norm_job nj))
      | VPanic => True
      end.
    Proof.
      intros (H1&H2&H3) Hj.
      assert (∀ nj : job M, noncron (ty nj) → qag new (S k1) (ty (norm_job nj)) (re (norm_job nj))) as HH.
      { intros nj Hnj. split; [done|]. split; [|done]. by apply (noncron_norm (ty nj)). }
      unfold WorldFacts.judge in Hj. destruct (jretry (ctx j)) as [r|].
      - destruct (retry_of prof clock k r (ur_retry u)) as [k' [[r' [t|]]|]].
        + injection Hj as <- <-. by apply HH.
        + rewrite finish_noncron in Hj by done. injection Hj as <- <-. destruct (ur_failed u); by apply HH.
        + by injection Hj as <- <-.
      - rewrite finish_noncron in Hj by done. injection Hj as <- <-. destruct (ur_failed u); by apply HH.
    Qed.
  End again.

  (** The step itself. *)
  Lemma tail_at es1 i u t :
    let s := after es1 in
    ok_hist initial es1 → tasks s !! i = Some t → t_phase t = AfterHook →
    (jid (t_job t) = tid t ∧ jstatus (ctx (t_job t)) = Running ∧ normal (t_job t) ∧ stored (sw s) (tid t) = Some (t_orig t)) ∧
    (alive s = true → 
     (step s (EvTask i u)).1 =
       let w' := do_tail prof sched name clock (sw s) (t_job t) u in
       match snd (judge (reads (sw s)) (t_job t) u) with
       | VPanic => Sys w' (cfg s) [] false (runs s)
       | _ => Sys w' (cfg s) (delete i (tasks s)) true (runs s)
       end).
  Proof.
    intros s Hok Ht Hph.
    pose proof (all_at_after prof sched name clock es1 Hok) as Hall. fold s in Hall.
    destruct (Hall (tid t)) as [p Hp].
    assert (t ∈ tasks_of (tid t) s) as Hin.
    { unfold tasks_of. apply elem_of_list_filter. split; [done|]. by eapply elem_of_list_lookup_2. }
    assert (p = PTask t) as ->.
    { destruct p; cbn in Hp; try (destruct Hp as ((_&_&_&HT)&_); rewrite HT in Hin; by apply elem_of_nil in Hin).
      - destruct Hp as (_&_&_&HT). rewrite HT in Hin. by apply elem_of_nil in Hin.
      - destruct Hp as ((_&_&_&HT)&_). rewrite HT in Hin. apply elem_of_list_singleton in Hin. by subst. }
    cbn in Hp. destruct Hp as ((Hst&Hcq&Hcr&HT)&_&Htn&Htr&Htp). rewrite Hph in Htp. destruct Htp as [d Htp].
    assert (jstatus (ctx (t_job t)) = Running) as Hjr by (rewrite Htp; exact Htr).
    split.
    - split; [by rewrite Htp|]. split; [done|]. split; [|done]. rewrite Htp.
      apply normal_iff in Htn. by apply normal_iff.
    - intros Hal. rewrite (step_task prof sched name clock s i t u Hal Ht) by (unfold is_cancelled; by rewrite Hjr).
      by rewrite Hph.
  Qed.

  Lemma after_snoc es e : after (es ++ [e]) = (step (after es) e).1.
  Proof. unfold after. by rewrite go_app. Qed.

  Lemma requeued es1 i u es2 t r :
    let s := after es1 in let s1 := after (es1 ++ [EvTask i u]) in
    let s' := after (es1 ++ EvTask i u :: es2) in
    ok_hist initial (es1 ++ EvTask i u :: es2) → alive s = true →
    tasks s !! i = Some t → t_phase t = AfterHook → jretry (ctx (t_job t)) = Some r →
    ur_retry u = DefaultRetryAt true → should_retry r = true →
    Forall (λ e, ¬ submits (tid t) e) es2 →
    match retry_retry_at prof r (clock (reads (sw s))) with
    | Some (r', a) =>
        alive s1 = true ∧
        (∃ j1, stored (sw s1) (tid t) = Some j1 ∧ jstatus (ctx j1) = Queued ∧
           jtype (ctx j1) = ScheduledAt (trunc_us a) ∧ jretry (ctx j1) = Some (norm_retry r') ∧ data j1 = data (t_job t)) ∧
        (∀ r, head (new_runs (tid t) s s') = Some r →
           ∃ k, picked_at (reads (sw s)) (reads (sw s')) r k ∧ trunc_us a < clock k) ∧
        Forall (λ r, ¬ is_cron r) (new_runs (tid t) s s') ∧
        ∃ j', stored (sw s') (tid t) = Some j' ∧ (jstatus (ctx j') = Running ∨ ¬ is_cron j')
    | None => alive s1 = false ∧ new_runs (tid t) s s' = [] ∧ status_of s' (tid t) = Some Running
    end.
  Proof.
    intros s s1 s' Hok Hal Ht Hph Hre Hu Hsh HE.
    destruct (tail_at es1 i u t) as [(Hjid & Hjr & Hno & Hst) Hstep]; [by apply ok_hist_app in Hok as [? _]|done|done|].
    specialize (Hstep Hal). fold s in Hst.
    assert (judge (reads (sw s)) (t_job t) u =
      (S (reads (sw s)), match retry_retry_at prof r (clock (reads (sw s))) with
        | Some (r', a) => VRequeue (with_type (with_retry (t_job t) r') (ScheduledAt a)) | None => VPanic end)) as Ej.
    { unfold WorldFacts.judge. rewrite Hre, Hu. cbn [retry_of]. rewrite Hsh. cbn [andb].
      destruct (retry_retry_at _ _ _) as [[r' a]|]; done. }
    assert (s1 = (step s (EvTask i u)).1) as Es1 by apply after_snoc.
    destruct (retry_retry_at prof r (clock (reads (sw s)))) as [[r' a]|] eqn:Er.
    - change (after es1) with s in Hstep. rewrite Ej in Hstep. cbn [snd] in Hstep.
      split; [rewrite Es1, Hstep; done|]. split.
      { exists (norm_job (enq (with_type (with_retry (t_job t) r') (ScheduledAt a)) (ms_of (clock (S (reads (sw s))))))).
        split; [|done]. rewrite Es1, Hstep. cbn [sw]. unfold do_tail. rewrite Ej. cbn [fst snd do_verdict].
        unfold do_re_enqueue. rewrite stored_push, stored_save, bool_decide_true; [done|]. by symmetry. }
      destruct (scheme_task prof sched name clock (tid t) (reads (sw s)) (λ e, ¬ submits (tid t) e)
        (qag (trunc_us a)) (rag (trunc_us a)) (λ new k t r st, qag (trunc_us a) new k t r) (oag (trunc_us a)))
        with (es1 := es1) (es2 := es2) (i := i) (u := u) (t := t)
             (k1 := S (reads (sw s))) (v := VRequeue (with_type (with_retry (t_job t) r') (ScheduledAt a))) as (p & Hp & Hs); try done.
      + by intros ? ? ? ? (?&?&?).
      + by intros ? ? ? ? (?&?&?).
      + intros. by eapply again_run.
      + intros. eapply again_judge; [done|]. done.
      + apply scheme_new in Hs as (_ & Hf & Hq).
        assert (oag (trunc_us a) (new_runs (tid t) s s')) as [Ho1 Ho2].
        { destruct p; try done; cbn in Hq; try (by apply Hq). destruct Hq as [_ Hq]. destruct (t_phase t0); try (by apply Hq). }
        split.
        { intros r1 Hr1. specialize (Ho1 _ Hr1). change (after es1) with s in Hf.
          assert (r1 ∈ new_runs (tid t) s s') as Hin.
          { destruct (new_runs (tid t) s s'); [done|]. injection Hr1 as ->. left. }
          rewrite list.Forall_forall in Hf. destruct (Hf _ Hin) as [_ [k Hk]]. exists k. split; [exact Hk|].
          destruct Hk as (_&_&Hd&_). unfold due in Hd. by rewrite Ho1 in Hd. }
        split.
        { eapply Forall_impl; [|exact Ho2]. intros r1. unfold is_cron, noncron, ty. intros X1 X2. by destruct (jtype (ctx r1)). }
        assert (∀ j1 : job M, noncron (ty j1) → ¬ is_cron j1) as Hic.
        { intros j1. unfold is_cron, noncron, ty. intros X1 X2. by destruct (jtype (ctx j1)). }
        destruct p; cbn in Hq; try done.
        * destruct Hp as ((E1&_)&_). exists j. split; [exact E1|]. right. by apply Hic, Hq.
        * destruct Hp as ((E1&_)&_). exists j. split; [exact E1|]. right. by apply Hic, Hq.
        * destruct Hp as ((E1&_)&_&(_&E2&_)). exists (t_orig t0). split; [exact E1|]. by left.
        * destruct Hp as ((E1&_)&_&_&E2). exists j. split; [exact E1|]. by left.
        * destruct Hp as ((E1&_)&_). exists j. split; [exact E1|]. right. by apply Hic, Hq.
    - change (after es1) with s in Hstep. rewrite Ej in Hstep. cbn [snd] in Hstep.
      split; [rewrite Es1, Hstep; done|].
      destruct (scheme_task prof sched name clock (tid t) (reads (sw s)) (λ e, ¬ submits (tid t) e)
        (λ _ _ _ _, False) (λ _ _ _ _, False) (λ _ _ _ _ _, False) (λ new, new = []))
        with (es1 := es1) (es2 := es2) (i := i) (u := u) (t := t)
             (k1 := S (reads (sw s))) (v := VPanic (M := M)) as (p & Hp & Hs); try done.
      apply scheme_new in Hs as (_ & Hf & Hq).
      destruct p; cbn in Hq; try done; try (by destruct Hq).
      + destruct Hq as [_ Hq]. destruct (t_phase t0); by destruct Hq.
      + split; [exact Hq|]. destruct Hp as ((E1&_)&_&_&E2). unfold status_of.
        change (Spec.stored (sw s') (tid t)) with (stored (sw s') (tid t)).
        change (after (es1 ++ EvTask i u :: es2)) with s' in E1. by rewrite E1; cbn; rewrite E2.
  Qed.

  (** *** Cron jobs without retry policy *)
  Lemma judge_cron k (j : job M) u k1 v e f sl n cc :
    ty j = Cron e sl n cc → re j = None → sched e = Some f → judge k j u = (k1, v) →
    match v with
    | VRequeue nj => re nj = None ∧
        ((∃ up, f (clock (S k)) = Some up ∧ i32_norm prof (n + 1) = Some (n + 1) ∧ ty nj = Cron e up (n + 1) cc) ∨
         (∃ up n', f (clock (S k)) = Some up ∧ i32_norm prof (n + 1) = Some n' ∧ in_i32 (n + 1) = false ∧ ty nj = Cron e up n' cc) ∨
         (f (clock (S k)) = None ∧ nj = j)) ∧
        (∀ m, max_repeat cc = Some m → n <= m) ∧ (∀ x, end_at cc = Some x → clock k <= x)
    | VFailed nj | VFinished nj => nj = j
    | VPanic => in_i32 (n + 1) = false
    end.
  Proof.
    intros Et Er Es Hj. unfold ty in Et. unfold re in Er. unfold WorldFacts.judge in Hj. rewrite Er in Hj.
    unfold finish_of, tick_of in Hj. rewrite Et, Es in Hj.
    set (over := _ || _) in Hj.
    assert (over = false → (∀ m, max_repeat cc = Some m → n <= m) ∧ (∀ x, end_at cc = Some x → clock k <= x)) as Hov.
    { unfold over. intros Ho. apply orb_false_iff in Ho as [Ho1 Ho2]. split.
      - intros m Hm. rewrite Hm in Ho1. apply Z.ltb_ge in Ho1. lia.
      - intros x Hx. rewrite Hx in Ho2. apply Z.ltb_ge in Ho2. lia. }
    destruct (f (clock (S k))) as [up|] eqn:Ef.
    - destruct (i32_norm prof (n + 1)) as [n'|] eqn:Ei.
      + destruct over eqn:Eo; injection Hj as <- <-; cbn.
        * by destruct (ur_failed u).
        * destruct (Hov eq_refl) as [Hm Hx]. split; [done|]. split; [|by split].
          unfold i32_norm in Ei. destruct (in_i32 (n + 1)) eqn:E1.
          -- injection Ei as <-. left. exists up. by unfold i32_norm.
          -- right. left. exists up, n'. by unfold i32_norm.
      + injection Hj as <- <-. unfold i32_norm in Ei. by destruct (in_i32 (n + 1)).
    - destruct over eqn:Eo; injection Hj as <- <-; cbn.
      + by destruct (ur_failed u).
      + destruct (Hov eq_refl) as [Hm Hx]. split; [done|]. split; [|by split]. right. right. done.
  Qed.

  (** C30 *)
  Section c30.
    Context (id e : string) (f : time → option time) (cc : cron_context) (m : Z).
    Context (Hsch : sched e = Some f) (Hnext : ∀ t, is_Some (f t)).
    Context (Hcc : max_repeat cc = Some m) (Hm : m < i32_max) (Hn : norm_cc cc = cc).
    Let len (l : list (job M)) : Z := Z.of_nat (length l).
    Definition o30 (new : list (job M)) : Prop := len new <= Z.max 0 m.
    Definition q30 (new : list (job M)) (k : nat) (t : job_type) (r : option retry) : Prop :=
      r = None ∧ (∃ sl, t = Cron e sl (1 + len new) cc) ∧ o30 new.
    Definition r30 (new : list (job M)) (k : nat) (t : job_type) (r : option retry) : Prop :=
      r = None ∧ (∃ sl, t = Cron e sl (len new) cc) ∧ 1 <= len new <= m.
    Lemma s30_run new k (r : job M) kp k0 :
      q30 new k (ty r) (re r) → picked_at k0 k r kp → jid r = id → r30 (new ++ [r]) k (ty r) (re r).
    Proof.
      intros (H1&[sl H2]&H3) (_&_&Hd&_) _. split; [done|]. unfold o30, len in *. rewrite app_length. cbn [length].
      unfold due in Hd. unfold ty in H2. rewrite H2 in Hd. destruct Hd as (_&Hd&_). specialize (Hd _ Hcc).
      split; [exists sl; unfold ty; rewrite H2; f_equal; lia|]. lia.
    Qed.
    Lemma s30_judge new k (j : job M) u k1 v :
      r30 new k (ty j) (re j) → judge k j u = (k1, v) →
      match v with
      | VRequeue nj => q30 new (S k1) (ty (norm_job nj)) (re (norm_job nj))
      | VFailed nj => o30 new
      | VFinished nj => o30 new
      | VPanic => True
      end.
    Proof.
      intros (H1&[sl H2]&H3) Hj. pose proof (judge_cron _ _ _ _ _ _ _ _ _ _ H2 H1 Hsch Hj) as HH.
      assert (o30 new) as Ho by (unfold o30; lia).
      assert (in_i32 (len new + 1) = true) as Hin.
      { unfold in_i32. rewrite !(proj2 (Z.leb_le _ _)); try done. all: unfold i32_min, i32_max in *; lia. }
      destruct v as [nj|nj|nj|]; try done.
      destruct HH as (HH1 & HH2 & _ & _). split; [|split; [|done]].
      - unfold re in *. cbn. by rewrite HH1.
      - destruct HH2 as [(up & Hu & _ & Ht)|[(up & n' & _ & _ & Hf & _)|[Hf _]]].
        + exists (trunc_us up). unfold ty in *. cbn. rewrite Ht. cbn. rewrite Hn. f_equal. lia.
        + congruence.
        + destruct (Hnext (clock (S k))) as [x Hx]. congruence.
    Qed.
  End c30.

  Lemma max_repeat_bound es1 j ec es2 e f sl cc m :
    jtype (ctx j) = Cron e sl 1 cc → jretry (ctx j) = None → max_repeat cc = Some m → m < i32_max →
    sched e = Some f → (∀ t, is_Some (f t)) →
    ok_hist initial (es1 ++ EvEnqueue j ec :: es2) → queues_it (after es1) j ec →
    Forall (λ e, ¬ revives (jid j) e) es2 →
    let s := after es1 in let s' := after (es1 ++ EvEnqueue j ec :: es2) in
    let n := Z.of_nat (length (new_runs (jid j) s s')) in
    n <= Z.max 0 m ∧
    ∀ j', stored (sw s') (jid j) = Some j' → jstatus (ctx j') = Queued →
      (∃ sl', jtype (ctx j') = Cron e sl' (1 + n) (norm_cc cc)) ∧
      (0 <= m → end_at cc = None → ∀ now, slot_of j' <= now → ¬ due j' now → n = m).
  Proof.
    intros Hty Hre Hmr Hm Hsch Hnext Hok Hq HE s s' n.
    assert (max_repeat (norm_cc cc) = Some m) as Hmr' by done.
    destruct (scheme_submit prof sched name clock (jid j) (reads (sw s)) (λ e, ¬ revives (jid j) e)
        (q30 e (norm_cc cc) m) (r30 e (norm_cc cc) m) (λ new _ _ _ _, o30 m new) (o30 m)) with (es1 := es1) (j := j) (ec := ec) (es2 := es2) as (p & Hp & Hs); try done.
    - by intros new k t r (_&_&?).
    - intros new k t r (_&_&?). unfold o30. lia.
    - intros e0 He0 Hx. apply He0. by destruct e0.
    - intros. by eapply s30_run.
    - intros. eapply s30_judge; try done. apply norm_cc_idem.
    - by intros _ new k t r (_&_&?).
    - intros k. split; [unfold re; cbn; by rewrite Hre|]. split; [|unfold o30; cbn; lia].
      unfold ty. cbn. rewrite Hty. by eexists.
    - apply scheme_new in Hs as (_ & _ & Hqq). change (after es1) with s in Hqq.
      change (after (es1 ++ EvEnqueue j ec :: es2)) with s' in Hqq.
      assert (o30 m (new_runs (jid j) s s')) as Ho.
      { destruct p; try done; cbn in Hqq; try (by apply Hqq). destruct Hqq as [_ Hqq].
        destruct (t_phase t); try (by apply Hqq). all: destruct Hqq as (_&_&?); unfold o30; lia. }
      split; [exact Ho|]. intros j' Hj' Hst'.
      assert (∃ k t r, t = jtype (ctx j') ∧ q30 e (norm_cc cc) m (new_runs (jid j) s s') k t r) as (k & t & r & -> & (_&[sl' Hsl]&_)).
      { destruct p; cbn in Hp.
        - destruct Hp as [Hp _]. unfold s' in Hj'. congruence.
        - destruct Hp as ((E1&_)&_&_&_). unfold s' in Hj'. assert (j0 = j') as -> by congruence. destruct Hqq as [_ Hqq]. eexists _, _, _. split; [reflexivity|exact Hqq].
        - destruct Hp as ((E1&_)&_&_&_). unfold s' in Hj'. assert (j0 = j') as -> by congruence. destruct Hqq as [_ Hqq]. eexists _, _, _. split; [reflexivity|exact Hqq].
        - destruct Hp as ((E1&_)&_&(_&E2&_)). unfold s' in Hj'. assert (t_orig t = j') as E3 by congruence. rewrite E3 in E2. congruence.
        - destruct Hp as ((E1&_)&_&_&E2). unfold s' in Hj'. assert (j0 = j') as -> by congruence. congruence.
        - destruct Hp as ((E1&_)&_&_&E2). unfold s' in Hj'. assert (j0 = j') as -> by congruence. unfold is_done in E2. by rewrite Hst' in E2. }
      split; [by exists sl'|]. intros Hm0 Hend now Hnow Hdue. unfold slot_of in Hnow. unfold due in Hdue. rewrite Hsl in Hnow, Hdue.
      unfold o30 in Ho. unfold n. destruct (decide (Z.of_nat (length (new_runs (jid j) s s')) = m)); [done|]. exfalso. apply Hdue.
      split; [done|]. split.
      + intros m' Hm'. assert (m' = m) as -> by congruence. lia.
      + intros x Hx. cbn in Hx. by rewrite Hend in Hx.
  Qed.

  (** C31 *)
  Section c31.
    Context (id e : string) (f : time → option time) (cc : cron_context).
    Context (Hsch : sched e = Some f).
    Context (Hf : ∀ t, ∃ u, f t = Some u ∧ t < u ∧ (1000 | u)).
    Context (Hck : ∀ a b, (a <= b)%nat → clock a <= clock b).
    Context (Hn : norm_cc cc = cc).
    Definition o31 (new : list (job M)) : Prop :=
      StronglySorted Z.lt (map slot_of new) ∧
      Forall (λ r : job M, is_cron r) new ∧ Forall (λ r, ∃ t, f t = Some (slot_of r)) (tail new).
    Definition q31 (new : list (job M)) (k : nat) (t : job_type) (r : option retry) : Prop :=
      r = None ∧ (∃ sl n, t = Cron e sl n cc ∧ Forall (λ r, slot_of r < sl) new ∧ (new ≠ [] → ∃ t0, f t0 = Some sl)) ∧ o31 new.
    Definition r31 (new : list (job M)) (k : nat) (t : job_type) (r : option retry) : Prop :=
      r = None ∧ (∃ sl n kp, t = Cron e sl n cc ∧ Forall (λ r, slot_of r <= sl) new ∧ (kp < k)%nat ∧ sl <= clock kp) ∧ o31 new.
    Lemma sorted_snoc (l : list Z) x : StronglySorted Z.lt l → Forall (λ y, y < x) l → StronglySorted Z.lt (l ++ [x]).
    Proof.
      induction 1 as [|y l Hs IH Hy]; intros Hx; cbn; [by repeat constructor|].
      apply Forall_cons_1 in Hx as [Hx1 Hx2]. constructor; [by apply IH|].
      apply Forall_app. split; [done|]. by repeat constructor.
    Qed.
    Lemma s31_run new k (r : job M) kp k0 :
      q31 new k (ty r) (re r) → picked_at k0 k r kp → jid r = id → r31 (new ++ [r]) k (ty r) (re r).
    Proof.
      intros (H1&(sl&n&H2&H3&H4)&(H5&H6&H7)) (_&Hk&Hd&_) _. split; [done|].
      unfold due in Hd. unfold ty in H2. rewrite H2 in Hd. destruct Hd as (Hd&_).
      assert (slot_of r = sl) as Es by (unfold slot_of; by rewrite H2).
      split.
      - exists sl, n, kp. split; [done|]. split; [|split; [lia|done]].
        apply Forall_app. split; [eapply Forall_impl; [|exact H3]; cbn; lia|]. repeat constructor. lia.
      - split; [|split].
        + rewrite map_app. apply sorted_snoc; [done|]. rewrite Es. by apply Forall_fmap.
        + apply Forall_app. split; [done|]. repeat constructor. unfold is_cron. by rewrite H2.
        + destruct new as [|r0 new]; [constructor|]. cbn in *. apply Forall_app. split; [done|]. repeat constructor.
          rewrite Es. by apply H4.
    Qed.
    Lemma s31_judge new k (j : job M) u k1 v :
      r31 new k (ty j) (re j) → judge k j u = (k1, v) →
      match v with
      | VRequeue nj => q31 new (S k1) (ty (norm_job nj)) (re (norm_job nj))
      | VFailed nj => o31 new
      | VFinished nj => o31 new
      | VPanic => True
      end.
    Proof.
      intros (H1&(sl&n&kp&H2&H3&H4&H5)&Ho) Hj. pose proof (judge_cron _ _ _ _ _ _ _ _ _ _ H2 H1 Hsch Hj) as HH.
      destruct v as [nj|nj|nj|]; try done.
      destruct HH as (HH1 & HH2 & _ & _).
      destruct (Hf (clock (S k))) as (x & Hx & Hlt & Hdiv).
      assert (trunc_us x = x) as Htr.
      { destruct Hdiv as [y ->]. unfold trunc_us, to_us, of_us. rewrite Z.div_mul by lia. done. }
      assert (∃ n', ty nj = Cron e x n' cc) as [n' Ht].
      { destruct HH2 as [(up & Hu & _ & Ht)|[(up & n' & Hu & _ & _ & Ht)|[Hu _]]].
        - assert (up = x) as -> by congruence. by eexists.
        - assert (up = x) as -> by congruence. by eexists.
        - congruence. }
      split; [unfold re in *; cbn; by rewrite HH1|]. split; [|done].
      exists x, n'. split; [unfold ty in *; cbn; rewrite Ht; cbn; by rewrite Hn, Htr|]. split.
      - eapply Forall_impl; [|exact H3]. cbn. intros r Hr. pose proof (Hck kp (S k) ltac:(lia)). lia.
      - intros _. by eexists.
    Qed.
  End c31.

  Lemma cron_slots es1 j ec es2 e f sl n cc :
    jtype (ctx j) = Cron e sl n cc → jretry (ctx j) = None →
    sched e = Some f → (∀ t, ∃ u, f t = Some u ∧ t < u ∧ (1000 | u)) →
    (∀ a b, (a <= b)%nat → clock a <= clock b) →
    ok_hist initial (es1 ++ EvEnqueue j ec :: es2) → queues_it (after es1) j ec →
    Forall (λ e, ¬ revives (jid j) e) es2 →
    let s := after es1 in let s' := after (es1 ++ EvEnqueue j ec :: es2) in
    let new := new_runs (jid j) s s' in
    StronglySorted Z.lt (map slot_of new) ∧
    Forall (λ r, ∃ t, f t = Some (slot_of r)) (tail new) ∧
    Forall (λ r, ∃ k, picked_at (reads (sw s)) (reads (sw s')) r k ∧ slot_of r <= clock k) new.
  Proof.
    intros Hty Hre Hsch Hf Hck Hok Hq HE s s' new.
    destruct (scheme_submit prof sched name clock (jid j) (reads (sw s)) (λ e, ¬ revives (jid j) e)
        (q31 e f (norm_cc cc)) (r31 e f (norm_cc cc)) (λ new _ _ _ _, o31 f new) (o31 f)) with (es1 := es1) (j := j) (ec := ec) (es2 := es2) as (p & Hp & Hs); try done.
    - by intros ? k t r (_&_&?).
    - by intros ? k t r (_&_&?).
    - intros e0 He0 Hx. apply He0. by destruct e0.
    - intros new0 k k' t r Hk (H1&(sl0&n0&kp&H2&H3&H4&H5)&Ho). split; [done|]. split; [|done]. exists sl0, n0, kp. split; [done|]. split; [done|]. split; [lia|done].
    - intros. by eapply s31_run.
    - intros. eapply s31_judge; try done. apply norm_cc_idem.
    - by intros _ ? k t r (_&_&?).
    - intros k. split; [unfold re; cbn; by rewrite Hre|]. split; [|by repeat constructor].
      unfold ty. cbn. rewrite Hty. exists (trunc_us sl), n. repeat split; [constructor|done].
    - apply scheme_new in Hs as (_ & Hfor & Hqq). change (after es1) with s in Hqq, Hfor.
      change (after (es1 ++ EvEnqueue j ec :: es2)) with s' in Hqq, Hfor. fold new in Hqq, Hfor.
      assert (o31 f new) as (Ho1&Ho2&Ho3).
      { destruct p; try done; cbn in Hqq; try (by apply Hqq). destruct Hqq as [_ Hqq].
        destruct (t_phase t); try (by apply Hqq). }
      split; [done|]. split; [done|].
      rewrite list.Forall_forall in Hfor |- *. intros r Hr. destruct (Hfor _ Hr) as [_ [k Hk]]. exists k. split; [done|].
      rewrite list.Forall_forall in Ho2. specialize (Ho2 _ Hr). destruct Hk as (_&_&Hd&_).
      unfold due, slot_of, is_cron in *. destruct (jtype (ctx r)); try done. by apply Hd.
  Qed.

  (** C32 *)
  Section c32.
    Context (id e : string) (cc : cron_context) (Hn : norm_cc cc = cc).
    Definition t32 (t : job_type) : Prop := ∃ sl n, t = Cron e sl n cc.
    Definition o32 (new : list (job M)) : Prop := Forall (λ r : job M, t32 (ty r)) new.
    Definition q32 (new : list (job M)) (k : nat) (t : job_type) (r : option retry) : Prop :=
      r = None ∧ t32 t ∧ o32 new.
    Lemma s32_run new k (r : job M) kp k0 :
      q32 new k (ty r) (re r) → picked_at k0 k r kp → jid r = id → q32 (new ++ [r]) k (ty r) (re r).
    Proof.
      intros (H1&H2&H3) _ _. split; [done|]. split; [done|]. apply Forall_app. split; [done|]. by repeat constructor.
    Qed.
    Lemma t32_norm (j : job M) : t32 (ty j) → t32 (ty (norm_job j)).
    Proof. intros (sl&n&H). unfold ty in *. cbn. rewrite H. cbn. rewrite Hn. by eexists _, _. Qed.
    Lemma s32_judge new k (j : job M) u k1 v :
      q32 new k (ty j) (re j) → judge k j u = (k1, v) →
      match v with
      | VRequeue nj => q32 new (S k1) (ty (norm_job nj)) (re (norm_job nj))
      | VFailed nj => q32 new (S k1) (ty (norm_job nj)) (re (norm_job nj))
      | VFinished nj => q32 new (S k1) (ty (norm_job nj)) (re (norm_job nj))
      | VPanic => True
      end.
    Proof.
      intros (H1&H2&Ho) Hj.
      assert (re (norm_job j) = None) as Hrn by (unfold re in *; cbn; by rewrite H1).
      pose proof H2 as (sl&n&Ht).
      destruct (sched e) as [f|] eqn:Es.
      - pose proof (judge_cron _ _ _ _ _ _ _ _ _ _ Ht H1 Es Hj) as HH.
        destruct v as [nj|nj|nj|]; try done.
        + destruct HH as (HH1 & HH2 & _ & _). split; [unfold re in *; cbn; by rewrite HH1|]. split; [|done].
          apply t32_norm.
          destruct HH2 as [(up & Hu & _ & Ht')|[(up & n' & Hu & _ & _ & Ht')|[Hu ->]]]; [by eexists _, _|by eexists _, _|done].
        + subst nj. split; [done|]. split; [by apply t32_norm|done].
        + subst nj. split; [done|]. split; [by apply t32_norm|done].
      - unfold WorldFacts.judge in Hj. unfold re in H1. rewrite H1 in Hj. unfold finish_of, tick_of in Hj.
        unfold ty in Ht. rewrite Ht, Es in Hj. cbn in Hj. injection Hj as <- <-.
        assert (q32 new (S (S k)) (ty (norm_job j)) (re (norm_job j))) as HH.
        { split; [done|]. split; [by apply t32_norm|done]. }
        by destruct (ur_failed u).
    Qed.
  End c32.

  Lemma cron_end es1 j ec es2 e sl n cc x :
    jtype (ctx j) = Cron e sl n cc → jretry (ctx j) = None → end_at cc = Some x →
    ok_hist initial (es1 ++ EvEnqueue j ec :: es2) → queues_it (after es1) j ec →
    Forall (λ e, ¬ submits (jid j) e) es2 →
    let s := after es1 in let s' := after (es1 ++ EvEnqueue j ec :: es2) in
    Forall (λ r, ∃ k, picked_at (reads (sw s)) (reads (sw s')) r k ∧ clock k <= x) (new_runs (jid j) s s').
  Proof.
    intros Hty Hre Hend Hok Hq HE s s'.
    destruct (scheme_submit prof sched name clock (jid j) (reads (sw s)) (λ e, ¬ submits (jid j) e)
        (q32 e (norm_cc cc)) (q32 e (norm_cc cc)) (λ new k t r st, q32 e (norm_cc cc) new k t r) (o32 e (norm_cc cc)))
        with (es1 := es1) (j := j) (ec := ec) (es2 := es2) as (p & Hp & Hs); try done.
    - by intros ? k t r (_&_&?).
    - by intros ? k t r (_&_&?).
    - intros. by eapply s32_run.
    - intros. eapply s32_judge; try done. apply norm_cc_idem.
    - intros k. split; [unfold re; cbn; by rewrite Hre|]. split; [|constructor].
      unfold ty. cbn. rewrite Hty. by eexists _, _.
    - apply scheme_new in Hs as (_ & Hfor & Hqq). change (after es1) with s in Hqq, Hfor.
      change (after (es1 ++ EvEnqueue j ec :: es2)) with s' in Hqq, Hfor.
      assert (o32 e (norm_cc cc) (new_runs (jid j) s s')) as Ho.
      { destruct p; try done; cbn in Hqq; try (by apply Hqq). destruct Hqq as [_ Hqq].
        destruct (t_phase t); try (by apply Hqq). }
      unfold o32 in Ho. rewrite list.Forall_forall in Ho, Hfor |- *. intros r Hr. destruct (Hfor _ Hr) as [_ [k Hk]].
      exists k. split; [done|]. destruct (Ho _ Hr) as (sl'&n'&Ht). destruct Hk as (_&_&Hd&_). unfold due in Hd. unfold ty in Ht.
      rewrite Ht in Hd. destruct Hd as (_&_&Hd). specialize (Hd (trunc_us x)).
      cbn in Hd. rewrite Hend in Hd. specialize (Hd eq_refl). pose proof (trunc_us_bounds x). lia.
  Qed.

  (** C33: a waiting job that is never due stays. *)
  Lemma never_due es1 es2 id j :
    ok_hist initial (es1 ++ es2) → stored (sw (after es1)) id = Some j →
    id ∈ qlist (sw (after es1)) Queued →
    (∀ k, (reads (sw (after es1)) <= k)%nat → ¬ due j (clock k)) →
    Forall (λ e, ¬ submits id e ∧ e ≠ EvCancel id) es2 →
    let s' := after (es1 ++ es2) in
    stored (sw s') id = Some j ∧ jstatus (ctx j) = Queued ∧ id ∈ qlist (sw s') Queued ∧
    runs_of id s' = runs_of id (after es1) ∧ tasks_of id s' = [].
  Proof.
    intros Hok Hj Hin Hdue HE s'. apply ok_hist_app in Hok as [Hok1 Hok2].
    pose proof (all_at_after prof sched name clock es1 Hok1) as Hall.
    destruct (Hall id) as [p Hp].
    assert (cnt id (qlist (sw (after es1)) Queued) ≠ 0%nat) as Hc by (apply cnt_pos in Hin; lia).
    assert (p = PQueued j) as ->.
    { destruct p; cbn in Hp.
      - destruct Hp as [Hp _]. congruence.
      - destruct Hp as ((E1&_)&_). congruence.
      - destruct Hp as ((_&E1&_)&_). congruence.
      - destruct Hp as ((_&E1&_)&_). congruence.
      - destruct Hp as ((_&E1&_)&_). congruence.
      - destruct Hp as ((_&E1&_)&_). congruence. }
    assert (s' = go (after es1) es2) as Hs'. { unfold s', after. by rewrite go_app. }
    rewrite Hs'.
    destruct (life_ind prof sched name clock (λ e, ¬ submits id e ∧ e ≠ EvCancel id)
      (λ k p rs, (reads (sw (after es1)) <= k)%nat ∧ p = PQueued j ∧ rs = runs_of id (after es1)) id (after es1) es2 (PQueued j))
      as (p' & Hp' & (_ & -> & Hr)); try done.
    { intros e k p new k' p' rs [He1 He2] (Hk & -> & ->) Hps. inversion Hps; subst; rewrite ?app_nil_r; try done; try (exfalso; by apply He1); try (exfalso; by apply He2).
      - split; [lia|done].
      - exfalso. apply (Hdue k); [done|]. by apply due_ready. }
    cbn in Hp'. destruct Hp' as ((E1&E2&E3&E4)&_&_&E5).
    split; [done|]. split; [done|]. split; [|by split].
    apply cnt_pos. change (0 < cnt id (qlist (sw (go (after es1) es2)) Queued))%nat. lia.
  Qed.

  (** *** The time of a retry *)
  Lemma dt_add_some t d a : dt_add t d = Some a → a = t + d.
  Proof. unfold dt_add. destruct (_ && _); [by intros [= <-]|done]. Qed.
  Lemma dt_add_in t d : dt_min <= t + d <= dt_max → dt_add t d = Some (t + d).
  Proof. intros H. unfold dt_add. rewrite !(proj2 (Z.leb_le _ _)) by lia. done. Qed.

  Lemma schedule_lost es1 i u es2 t r :
    let s := after es1 in let s' := after (es1 ++ EvTask i u :: es2) in
    ok_hist initial (es1 ++ EvTask i u :: es2) → alive s = true →
    tasks s !! i = Some t → t_phase t = AfterHook → jretry (ctx (t_job t)) = Some r →
    ur_retry u = DefaultRetryAt true → should_retry r = true →
    Forall (λ e, ¬ submits (tid t) e) es2 →
    Forall (λ r, ¬ is_cron r) (new_runs (tid t) s s') ∧
    ∃ j', stored (sw s') (tid t) = Some j' ∧ (jstatus (ctx j') = Running ∨ ¬ is_cron j').
  Proof.
    intros s s' Hok Hal Ht Hph Hre Hu Hsh HE.
    pose proof (requeued es1 i u es2 t _ Hok Hal Ht Hph Hre Hu Hsh HE) as HH. cbv zeta in HH.
    fold s in HH. fold s' in HH.
    destruct (retry_retry_at _ _ _) as [[r' a]|].
    - by destruct HH as (_ & _ & _ & H1 & H2).
    - destruct HH as (_ & H1 & H2). split; [rewrite H1; constructor|]. unfold status_of in H2.
      destruct (stored (sw s') (tid t)) as [j'|]; [|done]. exists j'. split; [done|]. left. by injection H2.
  Qed.

  Lemma interval_spacing es1 i u es2 t c m d :
    let s := after es1 in let s' := after (es1 ++ EvTask i u :: es2) in
    ok_hist initial (es1 ++ EvTask i u :: es2) → alive s = true →
    tasks s !! i = Some t → t_phase t = AfterHook →
    jretry (ctx (t_job t)) = Some (Retry c m (Interval d)) →
    ur_retry u = DefaultRetryAt true → should_retry (Retry c m (Interval d)) = true →
    Forall (λ e, ¬ submits (tid t) e) es2 →
    ∀ r, head (new_runs (tid t) s s') = Some r →
      ∃ k, picked_at (reads (sw s)) (reads (sw s')) r k ∧ clock (reads (sw s)) + d - 1000 < clock k.
  Proof.
    intros s s' Hok Hal Ht Hph Hre Hu Hsh HE r Hr.
    pose proof (requeued es1 i u es2 t _ Hok Hal Ht Hph Hre Hu Hsh HE) as HH. cbv zeta in HH.
    fold s in HH. fold s' in HH.
    destruct (retry_retry_at _ _ _) as [[r' a]|] eqn:Er.
    - destruct HH as (_ & _ & HH & _). destruct (HH r Hr) as (k & Hk & Hlt). exists k. split; [done|].
      unfold retry_retry_at in Er. cbn [retried_times strat] in Er.
      destruct (i32_norm prof (c + 1)) as [n|]; [|done]. cbn in Er.
      destruct (dt_add (clock (reads (sw s))) d) as [a'|] eqn:Ea; [|done]. cbn in Er. injection Er as <- <-.
      apply dt_add_some in Ea. pose proof (trunc_us_bounds a'). lia.
    - destruct HH as (_ & HH & _). by rewrite HH in Hr.
  Qed.

  Lemma pow2_small c : 0 <= c <= 29 → pow2_i32 prof (c + 1) = Some (2 ^ (c + 1)).
  Proof.
    intros H. unfold pow2_i32. rewrite Z.mod_small by lia. by rewrite (proj2 (Z.leb_le _ _)) by lia.
  Qed.
  Lemma backoff_small c m d now :
    0 <= c <= 29 → dt_min <= now + d * 2 ^ (c + 1) <= dt_max →
    retry_retry_at prof (Retry c m (ExponentialBackoff d)) now =
    Some (Retry (c + 1) m (ExponentialBackoff d), now + d * 2 ^ (c + 1)).
  Proof.
    intros Hc Hd. unfold retry_retry_at. cbn [retried_times strat max_retries].
    assert (i32_norm prof (c + 1) = Some (c + 1)) as ->.
    { unfold i32_norm, in_i32, i32_min, i32_max. by rewrite !(proj2 (Z.leb_le _ _)) by lia. }
    cbn [mbind option_bind]. rewrite pow2_small by done. cbn [mbind option_bind]. by rewrite dt_add_in.
  Qed.

  Lemma backoff_spacing es1 i u es2 t c m d :
    let s := after es1 in let s1 := after (es1 ++ [EvTask i u]) in let s' := after (es1 ++ EvTask i u :: es2) in
    ok_hist initial (es1 ++ EvTask i u :: es2) → alive s = true →
    tasks s !! i = Some t → t_phase t = AfterHook →
    jretry (ctx (t_job t)) = Some (Retry c m (ExponentialBackoff d)) →
    ur_retry u = DefaultRetryAt true → should_retry (Retry c m (ExponentialBackoff d)) = true →
    0 <= c <= 29 → dt_min <= clock (reads (sw s)) + d * 2 ^ (c + 1) <= dt_max →
    Forall (λ e, ¬ submits (tid t) e) es2 →
    (∃ j1 a, stored (sw s1) (tid t) = Some j1 ∧ jstatus (ctx j1) = Queued ∧
       jtype (ctx j1) = ScheduledAt a ∧ cut_us (clock (reads (sw s)) + d * 2 ^ (c + 1)) a ∧
       jretry (ctx j1) = Some (Retry (c + 1) m (ExponentialBackoff d))) ∧
    ∀ r, head (new_runs (tid t) s s') = Some r →
      ∃ k, picked_at (reads (sw s)) (reads (sw s')) r k ∧
           clock (reads (sw s)) + d * 2 ^ (c + 1) - 1000 < clock k.
  Proof.
    intros s s1 s' Hok Hal Ht Hph Hre Hu Hsh Hc Hd HE.
    destruct (tail_at es1 i u t) as [(_ & _ & Hno & _) _]; [by apply ok_hist_app in Hok as [? _]|done|done|].
    apply normal_iff in Hno as [_ Hno]. rewrite Hre in Hno. cbn in Hno. injection Hno as Hno.
    pose proof (requeued es1 i u es2 t _ Hok Hal Ht Hph Hre Hu Hsh HE) as HH. cbv zeta in HH.
    fold s in HH. fold s' in HH. fold s1 in HH. rewrite backoff_small in HH by done.
    destruct HH as (_ & (j1 & H1 & H2 & H3 & H4 & _) & HH & _).
    split.
    - exists j1, (trunc_us (clock (reads (sw s)) + d * 2 ^ (c + 1))).
      split; [done|]. split; [done|]. split; [done|]. split; [apply cut_us_trunc'|]. rewrite H4. unfold norm_retry. cbn. by rewrite Hno.
    - intros r Hr. destruct (HH r Hr) as (k & Hk & Hlt). exists k. split; [done|].
      pose proof (trunc_us_bounds (clock (reads (sw s)) + d * 2 ^ (c + 1))). lia.
  Qed.

  Lemma pow2_big c : 30 <= c < i32_max → pow2_i32 prof (c + 1) =
    match prof with Debug => None | Release => Some (if c =? 30 then i32_min else 0) end.
  Proof.
    unfold i32_max. intros H. unfold pow2_i32. rewrite Z.mod_small by lia. rewrite (proj2 (Z.leb_gt _ _)) by lia.
    destruct prof; [done|]. destruct (Z.eqb_spec c 30); [subst; done|]. by rewrite (proj2 (Z.eqb_neq _ _)) by lia.
  Qed.

  Lemma backoff_dies es1 i u es2 t c m d :
    let s := after es1 in let s1 := after (es1 ++ [EvTask i u]) in let s' := after (es1 ++ EvTask i u :: es2) in
    prof = Debug →
    ok_hist initial (es1 ++ EvTask i u :: es2) → alive s = true →
    tasks s !! i = Some t → t_phase t = AfterHook →
    jretry (ctx (t_job t)) = Some (Retry c m (ExponentialBackoff d)) →
    ur_retry u = DefaultRetryAt true → should_retry (Retry c m (ExponentialBackoff d)) = true →
    30 <= c < i32_max → Forall (λ e, ¬ submits (tid t) e) es2 →
    alive s1 = false ∧ tasks s1 = [] ∧ new_runs (tid t) s s' = [] ∧ status_of s' (tid t) = Some Running.
  Proof.
    intros s s1 s' Hp Hok Hal Ht Hph Hre Hu Hsh Hc HE.
    pose proof (requeued es1 i u es2 t _ Hok Hal Ht Hph Hre Hu Hsh HE) as HH. cbv zeta in HH.
    fold s in HH. fold s' in HH. fold s1 in HH.
    assert (retry_retry_at prof (Retry c m (ExponentialBackoff d)) (clock (reads (sw s))) = None) as En.
    { unfold retry_retry_at. cbn [retried_times strat max_retries].
      assert (i32_norm prof (c + 1) = Some (c + 1)) as ->.
      { unfold i32_norm, in_i32, i32_min, i32_max in *. by rewrite !(proj2 (Z.leb_le _ _)) by lia. }
      cbn [mbind option_bind]. rewrite pow2_big by done. by rewrite Hp. }
    rewrite En in HH. destruct HH as (H1 & H2 & H3). split; [done|]. split; [|by split].
    destruct (tail_at es1 i u t) as [_ Hst]; [by apply ok_hist_app in Hok as [? _]|done|done|].
    specialize (Hst Hal). change (after es1) with s in Hst.
    assert (s1 = (step s (EvTask i u)).1) as Es1 by apply after_snoc.
    rewrite <-Es1 in Hst. rewrite Hst in H1 |- *. cbv zeta in *. destruct (judge _ _ _).2; done.
  Qed.
End cron.
