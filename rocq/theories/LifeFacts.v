(** The life of one job id: in orderly histories every id is always in one of six situations, and the
    small changes of MicroFacts.v move it between them along few transitions. *)
From Verif Require Import Spec JsonFacts BackendFacts WorldFacts MicroFacts.

(** *** Counting *)
Definition cnt (id : string) (l : list string) : nat := length (filter (λ x, x = id) l).

Lemma cnt_nil id : cnt id [] = 0%nat.
Proof. done. Qed.
Lemma cnt_cons id x l : cnt id (x :: l) = ((if bool_decide (x = id) then 1 else 0) + cnt id l)%nat.
Proof.
  unfold cnt. rewrite filter_cons. destruct (bool_decide_reflect (x = id)).
  - rewrite decide_True by done. done.
  - rewrite decide_False by done. done.
Qed.
Lemma cnt_app id l l' : cnt id (l ++ l') = (cnt id l + cnt id l')%nat.
Proof. unfold cnt. by rewrite list.filter_app, app_length. Qed.
Lemma cnt_perm id l l' : l ≡ₚ l' → cnt id l = cnt id l'.
Proof. intros H. unfold cnt. by rewrite H. Qed.
Lemma cnt_remove id x l :
  cnt id (filter (λ y, y ≠ x) l) = if bool_decide (id = x) then 0%nat else cnt id l.
Proof.
  induction l as [|y l IH]; [by destruct (bool_decide _)|].
  rewrite filter_cons. destruct (decide (y ≠ x)) as [Hy|Hy].
  - rewrite !cnt_cons, IH. destruct (bool_decide_reflect (id = x)); [|done]. subst.
    by rewrite bool_decide_false.
  - apply dec_stable in Hy as ->. rewrite IH, cnt_cons.
    destruct (bool_decide_reflect (id = x)); [done|]. by rewrite bool_decide_false.
Qed.
Lemma cnt_0 id l : cnt id l = 0%nat ↔ id ∉ l.
Proof.
  induction l as [|x l IH]; [split; [intros _; apply not_elem_of_nil|done]|].
  rewrite cnt_cons, not_elem_of_cons. destruct (bool_decide_reflect (x = id)); split; intros; try lia.
  - destruct H as [H _]. congruence.
  - split; [congruence|]. apply IH. lia.
  - destruct H as [_ H]. apply IH in H. lia.
Qed.
Lemma cnt_pos id l : (0 < cnt id l)%nat ↔ id ∈ l.
Proof.
  destruct (decide (id ∈ l)) as [H|H].
  - split; [done|]. intros _. destruct (cnt id l) eqn:E; [|lia]. apply cnt_0 in E. done.
  - split; [|done]. apply cnt_0 in H. lia.
Qed.
Lemma cnt_nodup l : (∀ id, cnt id l <= 1)%nat → NoDup l.
Proof.
  induction l as [|x l IH]; intros H; constructor.
  - apply cnt_0. specialize (H x). rewrite cnt_cons, bool_decide_true in H by done. lia.
  - apply IH. intros id. specialize (H id). rewrite cnt_cons in H. lia.
Qed.

Lemma is_done_status {M} (j : job M) : is_done j = true ↔
  jstatus (ctx j) = Finished ∨ jstatus (ctx j) = Canceled ∨ jstatus (ctx j) = Failed.
Proof. unfold is_done. rewrite !orb_true_iff, !bool_decide_eq_true. tauto. Qed.
Lemma is_queued_status {M} (j : job M) : is_queued j = true ↔ jstatus (ctx j) = Queued.
Proof. unfold is_queued. apply bool_decide_eq_true. Qed.
Lemma is_running_status {M} (j : job M) : is_running j = true ↔ jstatus (ctx j) = Running.
Proof. unfold is_running. apply bool_decide_eq_true. Qed.

Section life.
  Context {M : Type} `{SM : Serde M} {SO : SerdeOk M}.
  Context (prof : profile).
  Context (sched : string → option (time → option time)).
  Context (name : string).
  Context (clock : nat → time).
  Notation h := (mem_h clock).
  Notation qlist := (qlist name).
  Notation stored := (@stored M SM).
  Notation sys := (sys world M).
  Notation sys_step := (sys_step prof sched name h).
  Notation mstep := (mstep prof sched name clock).
  Notation msteps e := (rtc (mstep e)).

  (** *** Observations after the composite changes *)
  Lemma qlist_do_enqueue w j s :
    qlist (do_enqueue name clock w j) s =
    if bool_decide (s = Queued) then jid j :: qlist w Queued else qlist w s.
  Proof. unfold do_enqueue. by rewrite qlist_save, qlist_tick, qlist_push. Qed.
  Lemma stored_do_enqueue w j k :
    stored (do_enqueue name clock w j) k =
    if bool_decide (k = jid j) then Some (norm_job (enq j (now_ms clock w))) else stored w k.
  Proof. unfold do_enqueue. rewrite stored_save, stored_tick, stored_push. done. Qed.
  Lemma qlist_do_re_enqueue w j s :
    qlist (do_re_enqueue name clock w j) s =
    let base s := if bool_decide (s = jstatus (ctx j))
                  then filter (λ y, y ≠ jid j) (qlist w s) else qlist w s in
    if bool_decide (s = Queued) then jid j :: base s else base s.
  Proof.
    unfold do_re_enqueue. rewrite qlist_push, !qlist_save, !qlist_tick, !qlist_rem. cbn.
    destruct (bool_decide_reflect (s = Queued)) as [->|].
    - destruct (bool_decide_reflect (Queued = jstatus (ctx j))) as [->|]; done.
    - destruct (bool_decide_reflect (s = jstatus (ctx j))) as [->|]; done.
  Qed.
  Lemma stored_do_re_enqueue w j k :
    stored (do_re_enqueue name clock w j) k =
    if bool_decide (k = jid j) then Some (norm_job (enq j (now_ms clock w))) else stored w k.
  Proof. unfold do_re_enqueue. rewrite stored_push, stored_save, stored_tick, stored_rem. done. Qed.
  Lemma qlist_do_finish w j s :
    qlist (do_finish name clock w j) s =
    match s with
    | Running => filter (λ y, y ≠ jid j) (qlist w Running)
    | Finished => jid j :: qlist w Finished
    | _ => qlist w s end.
  Proof.
    unfold do_finish. rewrite qlist_push, !qlist_save, !qlist_tick, !qlist_rem. by destruct s.
  Qed.
  Lemma stored_do_finish w j k :
    stored (do_finish name clock w j) k =
    if bool_decide (k = jid j) then Some (norm_job (fin j (now_ms clock w))) else stored w k.
  Proof. unfold do_finish. rewrite stored_push, stored_save, stored_tick, stored_rem. done. Qed.
  Lemma qlist_do_fail w j s :
    qlist (do_fail name clock w j) s =
    match s with
    | Running => filter (λ y, y ≠ jid j) (qlist w Running)
    | Failed => jid j :: qlist w Failed
    | _ => qlist w s end.
  Proof.
    unfold do_fail. rewrite qlist_push, !qlist_rem, !qlist_save, !qlist_tick. by destruct s.
  Qed.
  Lemma stored_do_fail w j k :
    stored (do_fail name clock w j) k =
    if bool_decide (k = jid j) then Some (norm_job (fai j (now_ms clock w))) else stored w k.
  Proof. unfold do_fail. rewrite stored_push, stored_rem, stored_save, stored_tick. done. Qed.

  (** *** Normal forms *)
  Lemma norm_status (j : job M) : jstatus (ctx (norm_job j)) = jstatus (ctx j).
  Proof. done. Qed.
  Lemma norm_jid (j : job M) : jid (norm_job j) = jid j.
  Proof. done. Qed.
  Definition normal (j : job M) : Prop := norm_job j = j.
  Lemma normal_norm j : normal (norm_job j).
  Proof. apply norm_job_idem. Qed.
  Lemma normal_iff j :
    normal j ↔ norm_type (jtype (ctx j)) = jtype (ctx j) ∧ norm_retry <$> jretry (ctx j) = jretry (ctx j).
  Proof.
    destruct j as [[] d]. unfold normal, norm_job, norm_ctx. cbn. split.
    - intros [=]. done.
    - by intros [-> ->].
  Qed.
  Lemma normal_prc j t : normal j → normal (prc j t).
  Proof. by rewrite !normal_iff. Qed.
  Lemma normal_enq j t : normal j → normal (enq j t).
  Proof. by rewrite !normal_iff. Qed.
  Lemma normal_can j t : normal j → normal (can j t).
  Proof. by rewrite !normal_iff. Qed.

  (** *** Situations of an id *)
  Inductive pstate :=
    | PAbsent
    | PQueued (j : job M)
    | PLimbo (j : job M)     (* stored as Queued, but in no list *)
    | PTask (t : task M)
    | POrphan (j : job M)    (* in the processing list, but no task *)
    | PDone (j : job M).

  (** The task's own copy of the job differs from the picked one only in run_count and data. *)
  Definition task_ok (t : task M) : Prop :=
    normal (t_orig t) ∧ jstatus (ctx (t_orig t)) = Running ∧
    match t_phase t with
    | Spawned | Hooked => t_job t = t_orig t
    | InUser => t_job t = bump (t_orig t)
    | AfterHook => ∃ d, t_job t = set_data (bump (t_orig t)) d
    end.

  Definition at_ (s : sys) (id : string) (p : pstate) : Prop :=
    let w := sw s in
    let here (o : option (job M)) q r ts :=
      stored w id = o ∧ cnt id (qlist w Queued) = q ∧ cnt id (qlist w Running) = r ∧
      tasks_of id s = ts in
    match p with
    | PAbsent => here None 0%nat 0%nat []
    | PQueued j => here (Some j) 1%nat 0%nat [] ∧ jid j = id ∧ normal j ∧ jstatus (ctx j) = Queued
    | PLimbo j => here (Some j) 0%nat 0%nat [] ∧ jid j = id ∧ normal j ∧ jstatus (ctx j) = Queued
    | PTask t => here (Some (t_orig t)) 0%nat 1%nat [t] ∧ tid t = id ∧ task_ok t
    | POrphan j => here (Some j) 0%nat 1%nat [] ∧ jid j = id ∧ normal j ∧ jstatus (ctx j) = Running
    | PDone j => here (Some j) 0%nat 0%nat [] ∧ jid j = id ∧ normal j ∧ is_done j = true
    end.

  Definition all_at (s : sys) : Prop := ∀ id, ∃ p, at_ s id p.

  (** *** Transitions *)
  (** [pstep id e k p new k' p']: during event [e], between clock readings [k] and [k'], the id goes
      from [p] to [p'], and its user code is started with the jobs [new]. *)
  Inductive pstep (id : string) (e : event M) : nat → pstate → list (job M) → nat → pstate → Prop :=
  | p_stay k k' p : (k <= k')%nat → pstep id e k p [] k' p
  | p_submit k j ec p :
      e = EvEnqueue j ec → jid j = id →
      (p = PAbsent ∨ ∃ j0, p = PDone j0 ∧ re_run ec = true) →
      pstep id e k p [] (S k) (PQueued (norm_job (enq j (ms_of (clock k)))))
  | p_override k j ec j0 :
      e = EvEnqueue j ec → jid j = id → override_data ec = true → jstatus (ctx j) = Queued →
      pstep id e k (PQueued j0) [] k (PQueued (norm_job j))
  | p_override_limbo k j ec j0 :
      e = EvEnqueue j ec → jid j = id → override_data ec = true → jstatus (ctx j) = Queued →
      pstep id e k (PLimbo j0) [] k (PLimbo (norm_job j))
  | p_override_done k j ec j0 :
      e = EvEnqueue j ec → jid j = id → override_data ec = true → re_run ec = false →
      jstatus (ctx j) = jstatus (ctx j0) →
      pstep id e k (PDone j0) [] k (PDone (norm_job j))
  | p_limbo k j ec j0 :
      e = EvEnqueue j ec → jid j = id → override_data ec = true → re_run ec = false →
      jstatus (ctx j) = Queued →
      pstep id e k (PDone j0) [] k (PLimbo (norm_job j))
  | p_cancel k j p :
      e = EvCancel id → p = PQueued j ∨ p = PLimbo j →
      pstep id e k p [] (S k) (PDone (can j (ms_of (clock k))))
  | p_retry k j :
      e = EvRetry id → pstep id e k (PDone j) [] (S k) (PQueued (enq j (ms_of (clock k))))
  | p_pick k j :
      is_tick e → is_ready j (clock k) = true →
      pstep id e k (PQueued j) [] (S (S k)) (PTask (spawn (prc j (ms_of (clock (S k))))))
  | p_hook k t i u :
      e = EvTask i u → t_phase t = Spawned →
      pstep id e k (PTask t) [] k (PTask (Task (t_orig t) (t_job t) Hooked))
  | p_run k t i u :
      e = EvTask i u → t_phase t = Hooked →
      pstep id e k (PTask t) [bump (t_job t)] k (PTask (Task (t_orig t) (bump (t_job t)) InUser))
  | p_return k t i u :
      e = EvTask i u → t_phase t = InUser →
      pstep id e k (PTask t) [] k
        (PTask (Task (t_orig t) (set_data (t_job t) (ur_data u)) AfterHook))
  | p_requeue k k1 t i u nj :
      e = EvTask i u → t_phase t = AfterHook →
      judge prof sched clock k (t_job t) u = (k1, VRequeue nj) →
      pstep id e k (PTask t) [] (S k1) (PQueued (norm_job (enq nj (ms_of (clock k1)))))
  | p_failed k k1 t i u nj :
      e = EvTask i u → t_phase t = AfterHook →
      judge prof sched clock k (t_job t) u = (k1, VFailed nj) →
      pstep id e k (PTask t) [] (S k1) (PDone (norm_job (fai nj (ms_of (clock k1)))))
  | p_finished k k1 t i u nj :
      e = EvTask i u → t_phase t = AfterHook →
      judge prof sched clock k (t_job t) u = (k1, VFinished nj) →
      pstep id e k (PTask t) [] (S k1) (PDone (norm_job (fin nj (ms_of (clock k1)))))
  | p_panicked k k1 t i u :
      e = EvTask i u → t_phase t = AfterHook →
      judge prof sched clock k (t_job t) u = (k1, VPanic) →
      pstep id e k (PTask t) [] k1 (POrphan (t_orig t))
  | p_die k t :
      pstep id e k (PTask t) [] k (POrphan (t_orig t)).

  (** *** Facts about judge: the job keeps its id and status, readings only go up *)
  Definition same_id (j j' : job M) : Prop := jid j' = jid j ∧ jstatus (ctx j') = jstatus (ctx j).
  Lemma tick_of_reads k (j : job M) : (k <= fst (tick_of prof sched clock k j))%nat.
  Proof.
    unfold tick_of. destruct (jtype (ctx j)); cbn; try lia. destruct (sched expression); cbn; [|lia].
    destruct (o _); [destruct (i32_norm _ _)|]; cbn; lia.
  Qed.
  Lemma tick_of_same k (j nj : job M) :
    snd (tick_of prof sched clock k j) = Some (Some nj) → same_id j nj.
  Proof.
    unfold tick_of, same_id. destruct (jtype (ctx j)); cbn; try done. destruct (sched expression); cbn; [|done].
    destruct (o _); [destruct (i32_norm _ _)|]; cbn; try done;
      destruct (_ || _); intros [= <-]; done.
  Qed.
  Lemma finish_of_spec k (j : job M) b k1 v :
    finish_of prof sched clock k j b = (k1, v) →
    (k <= k1)%nat ∧ match v with VRequeue nj | VFailed nj | VFinished nj => same_id j nj | VPanic => True end.
  Proof.
    unfold finish_of. intros [= <- <-]. split; [apply tick_of_reads|].
    destruct (snd (tick_of prof sched clock k j)) as [[nj|]|] eqn:E; [by eapply tick_of_same| |done].
    destruct b; done.
  Qed.
  Lemma judge_spec k (j : job M) u k1 v :
    judge prof sched clock k j u = (k1, v) →
    (k <= k1)%nat ∧ match v with VRequeue nj | VFailed nj | VFinished nj => same_id j nj | VPanic => True end.
  Proof.
    unfold judge. destruct (jretry (ctx j)) as [r|]; [|apply finish_of_spec].
    destruct (retry_of prof clock k r (ur_retry u)) as [k' o] eqn:E.
    assert (k <= k')%nat as Hk.
    { unfold retry_of in E. destruct (ur_retry u); [destruct (_ && _)|]; injection E as <- _; lia. }
    destruct o as [[r' [t|]]|].
    - intros [= <- <-]. done.
    - intros H. apply finish_of_spec in H as [H1 H2]. split; [lia|].
      destruct v; done.
    - intros [= <- <-]. done.
  Qed.

  (** *** Frame: changes that do not concern an id *)
  Lemma at_frame s s' id p :
    at_ s id p → stored (sw s') id = stored (sw s) id →
    cnt id (qlist (sw s') Queued) = cnt id (qlist (sw s) Queued) →
    cnt id (qlist (sw s') Running) = cnt id (qlist (sw s) Running) →
    tasks_of id s' = tasks_of id s → at_ s' id p.
  Proof.
    intros H E1 E2 E3 E4. unfold at_ in *. cbv beta zeta in *. rewrite E1, E2, E3, E4. done.
  Qed.

  Lemma at_task_of s i t :
    all_at s → tasks s !! i = Some t → at_ s (tid t) (PTask t).
  Proof.
    intros Ha Ht. destruct (Ha (tid t)) as [p Hp].
    assert (t ∈ tasks_of (tid t) s) as Hin.
    { unfold tasks_of. apply elem_of_list_filter. split; [done|]. by eapply elem_of_list_lookup_2. }
    destruct p; cbn in Hp; unfold at_; cbv beta zeta.
    all: try (destruct Hp as [(_&_&_&HT) _] || destruct Hp as (_&_&_&HT); rewrite HT in Hin;
              by apply not_elem_of_nil in Hin).
    destruct Hp as [(H1&H2&H3&HT) H4]. rewrite HT in Hin. apply elem_of_list_singleton in Hin as ->.
    rewrite HT. done.
  Qed.

  Lemma task_split (ts : list (task M)) i t :
    ts !! i = Some t → ∃ l1 l2, ts = l1 ++ t :: l2 ∧ delete i ts = l1 ++ l2 ∧
      ∀ t', <[i := t']> ts = l1 ++ t' :: l2.
  Proof.
    intros H. apply elem_of_list_split_length in H as (l1 & l2 & -> & ->). exists l1, l2.
    split; [done|]. split.
    - by rewrite delete_middle.
    - intros t'. rewrite insert_app_r_alt by lia. by rewrite Nat.sub_diag.
  Qed.

  Lemma tasks_of_split (ts l1 l2 : list (task M)) t id :
    ts = l1 ++ t :: l2 →
    filter (λ t, tid t = id) ts = filter (λ t, tid t = id) l1 ++
      (if bool_decide (tid t = id) then [t] else []) ++ filter (λ t, tid t = id) l2.
  Proof.
    intros ->. rewrite list.filter_app, filter_cons. destruct (bool_decide_reflect (tid t = id)).
    - by rewrite decide_True.
    - by rewrite decide_False.
  Qed.

  Lemma unique_task (ts l1 l2 : list (task M)) t :
    ts = l1 ++ t :: l2 → filter (λ t', tid t' = tid t) ts = [t] →
    filter (λ t', tid t' = tid t) l1 = [] ∧ filter (λ t', tid t' = tid t) l2 = [].
  Proof.
    intros Hs Hf. rewrite (tasks_of_split _ _ _ _ _ Hs), bool_decide_true in Hf by done.
    destruct (filter _ l1) as [|a l]; cbn in Hf.
    - split; [done|]. by injection Hf.
    - destruct l; cbn in Hf; discriminate.
  Qed.

  (** Replacing or deleting the task of another id. *)
  Lemma tasks_of_insert_ne (ts : list (task M)) i (t t' : task M) id :
    ts !! i = Some t → tid t' = tid t → tid t ≠ id →
    filter (λ t, tid t = id) (<[i := t']> ts) = filter (λ t, tid t = id) ts.
  Proof.
    intros H Ht Hne. destruct (task_split _ _ _ H) as (l1 & l2 & E & _ & Hi).
    rewrite (tasks_of_split _ _ _ _ id (Hi t')), (tasks_of_split _ _ _ _ id E).
    by rewrite Ht, bool_decide_false.
  Qed.
  Lemma tasks_of_delete_ne (ts : list (task M)) i (t : task M) id :
    ts !! i = Some t → tid t ≠ id →
    filter (λ t, tid t = id) (delete i ts) = filter (λ t, tid t = id) ts.
  Proof.
    intros H Hne. destruct (task_split _ _ _ H) as (l1 & l2 & E & -> & Hi).
    rewrite (tasks_of_split _ _ _ _ id E), bool_decide_false by done. by rewrite list.filter_app.
  Qed.
  Lemma tasks_of_insert_eq (ts : list (task M)) i (t t' : task M) :
    ts !! i = Some t → tid t' = tid t → filter (λ t', tid t' = tid t) ts = [t] →
    filter (λ t', tid t' = tid t) (<[i := t']> ts) = [t'].
  Proof.
    intros H Ht Hf. destruct (task_split _ _ _ H) as (l1 & l2 & E & _ & Hi).
    destruct (unique_task _ _ _ _ E Hf) as [E1 E2].
    rewrite (tasks_of_split _ _ _ _ (tid t) (Hi t')), E1, E2, bool_decide_true by done. done.
  Qed.
  Lemma tasks_of_delete_eq (ts : list (task M)) i (t : task M) :
    ts !! i = Some t → filter (λ t', tid t' = tid t) ts = [t] →
    filter (λ t', tid t' = tid t) (delete i ts) = [].
  Proof.
    intros H Hf. destruct (task_split _ _ _ H) as (l1 & l2 & E & Hd & Hi).
    destruct (unique_task _ _ _ _ E Hf) as [E1 E2]. rewrite Hd.
    by rewrite list.filter_app, E1, E2.
  Qed.

  Lemma task_ok_jid t : task_ok t → jid (t_job t) = tid t ∧ jstatus (ctx (t_job t)) = Running.
  Proof.
    intros (_ & Hs & Hp). unfold tid.
    destruct (t_phase t); [rewrite Hp|rewrite Hp|rewrite Hp|destruct Hp as [d Hp]; rewrite Hp]; done.
  Qed.

  Lemma at_none s id p : at_ s id p → stored (sw s) id = None → p = PAbsent.
  Proof. destruct p; cbn; [done|..]; intros [(H&_) _] H'; congruence. Qed.
  Lemma at_done s id p ex : at_ s id p → stored (sw s) id = Some ex → is_done ex = true → p = PDone ex.
  Proof.
    rewrite is_done_status. destruct p; cbn.
    1: intros (H&_) H' _; congruence.
    1,2,4: intros [(H&_) (_&_&Hs)] H' Hd; rewrite H in H'; injection H' as ->; rewrite Hs in Hd; intuition congruence.
    - intros [(H&_) (_&_&Hs&_)] H' Hd. rewrite H in H'. injection H' as <-. rewrite Hs in Hd. intuition congruence.
    - intros [(H&_) _] H' _. congruence.
  Qed.
  Lemma at_queued s id p ex : at_ s id p → stored (sw s) id = Some ex → is_queued ex = true →
    p = PQueued ex ∨ p = PLimbo ex.
  Proof.
    rewrite is_queued_status. destruct p; cbn.
    1: intros (H&_) H' _; congruence.
    1,2: intros [(H&_) (_&_&Hs)] H' Hd; rewrite H in H'; injection H' as ->; eauto.
    - intros [(H&_) (_&_&Hs&_)] H' Hd. congruence.
    - intros [(H&_) (_&_&Hs)] H' Hd. congruence.
    - intros [(H&_) (_&_&Hs)] H' Hd. apply is_done_status in Hs. rewrite H in H'. injection H' as ->.
      intuition congruence.
  Qed.
  Lemma at_waiting s id p : at_ s id p → id ∈ qlist (sw s) Queued → ∃ j, p = PQueued j.
  Proof.
    intros H Hin. apply cnt_pos in Hin. destruct p; cbn in H.
    1: destruct H as (_&H&_); lia.
    2-5: destruct H as [(_&H&_) _]; lia.
    eauto.
  Qed.

  Ltac frame H :=
    eexists _, []; split; [eapply at_frame; [exact H|cbn [sw tasks]..] |
      split; [apply p_stay; cbn; lia|cbn; by rewrite app_nil_r]].
  Ltac chg Hc := eexists _, _; split; [|split; [eapply Hc; eauto|cbn; by rewrite app_nil_r]].

  Lemma life_mstep s e s' :
    all_at s → ok_event s e → mstep e s s' →
    ∀ id p, at_ s id p → ∃ p' new, at_ s' id p' ∧
      pstep id e (reads (sw s)) p new (reads (sw s')) p' ∧ runs_of id s' = runs_of id s ++ new.
  Proof.
    intros Ha Hok Hm id p Hp.
    destruct Hm as [w w' c ts a rs Hs Hq Hr Hl|w c c' ts rs He|w c rs He|w w1 c ts rs j ec He Hw1
      |w c ts rs j ec ex He Ex Ho Hr Hd|w c ts rs id' j He Ex Hq|w c ts rs id' j He Ex Hd
      |w c ts rs l id' j He El Ex Hrd Hlim j'|w c ts rs i t u He Et Eph Ec|w c ts rs i t u He Et Eph Ec
      |w c ts rs i t u He Et Eph|w c ts rs i t u He Et Eph|w c ts rs i t u He Et Eph
      |w c c' ts a rs].
    - (* idle *)
      frame Hp; [done|by apply cnt_perm|by apply cnt_perm|done].
    - frame Hp; done.
    - frame Hp; done.
    - (* submit *)
      assert (reads w1 = reads w ∧ (∀ s, qlist w1 s = qlist w s) ∧
        ∀ k, k ≠ jid j → stored w1 k = stored w k) as (Er & Eq & Es).
      { destruct (stored w (jid j)) as [ex|]; [|by subst].
        destruct Hw1 as (_&_&->). destruct (override_data ec); [|done].
        split; [done|]. split; [intros s; apply qlist_put|].
        intros k Hk. rewrite stored_put. by rewrite bool_decide_false. }
      destruct (decide (id = jid j)) as [->|Hne].
      + assert (p = PAbsent ∨ ∃ j0, p = PDone j0 ∧ re_run ec = true) as Hpp.
        { destruct (stored w (jid j)) as [ex|] eqn:E.
          - destruct Hw1 as (Hd&Hr&_). right. exists ex. split; [|done]. by eapply at_done.
          - left. by eapply at_none. }
        assert (cnt (jid j) (qlist w Queued) = 0%nat ∧ cnt (jid j) (qlist w Running) = 0%nat ∧
          filter (λ t, tid t = jid j) ts = []) as (C1 & C2 & C3).
        { destruct Hpp as [->|(j0&->&_)]; cbn in Hp; [destruct Hp as (_&?&?&?)|destruct Hp as [(_&?&?&?) _]]; done. }
        eexists _, _. split; [|split; [|cbn; by rewrite app_nil_r]].
        2:{ replace (reads (sw (Sys (do_enqueue name clock w1 j) c ts true rs))) with (S (reads w)) by (cbn; lia).
            eapply p_submit; eauto. }
        cbn. rewrite !qlist_do_enqueue, stored_do_enqueue.
        rewrite bool_decide_true by done.
        change (bool_decide (Queued = Queued)) with true. change (bool_decide (Running = Queued)) with false.
        cbn iota. rewrite !Eq, cnt_cons, bool_decide_true, C1, C2 by done.
        unfold now_ms. rewrite Er. repeat split; try done; apply normal_norm.
      + frame Hp.
        * rewrite stored_do_enqueue, bool_decide_false by done. by apply Es.
        * rewrite qlist_do_enqueue. change (bool_decide (Queued = Queued)) with true. cbn iota.
          rewrite cnt_cons, bool_decide_false by congruence. by rewrite Eq.
        * rewrite qlist_do_enqueue. change (bool_decide (Running = Queued)) with false. cbn iota. by rewrite Eq.
        * done.
    - (* override *)
      destruct (decide (id = jid j)) as [->|Hne].
      2:{ frame Hp; [by rewrite stored_put, bool_decide_false by done|by rewrite qlist_put..|done]. }
      subst e. cbn in Hok.
      assert (jstatus (ctx j) = Queued ∨ jstatus (ctx ex) = jstatus (ctx j)) as Hst.
      { destruct Hok as [?|(ex'&E'&?)]; [by left|right]. congruence. }
      clear Hok.
      destruct (is_queued ex) eqn:Eqd; [|destruct (is_done ex) eqn:Edn].
      + apply is_queued_status in Eqd as Eqd'.
        assert (jstatus (ctx j) = Queued) as Hjq by (destruct Hst; congruence).
        destruct (at_queued _ _ _ _ Hp Ex Eqd) as [->| ->]; cbn in Hp; destruct Hp as [(H1&H2&H3&H4) H5].
        * chg p_override. cbn. rewrite !qlist_put, stored_put, bool_decide_true by done.
          repeat split; try done; apply normal_norm.
        * chg p_override_limbo. cbn. rewrite !qlist_put, stored_put, bool_decide_true by done.
          repeat split; try done; apply normal_norm.
      + assert (re_run ec = false) as Hre by (destruct (re_run ec); done).
        assert (p = PDone ex) as -> by by eapply at_done.
        cbn in Hp; destruct Hp as [(H1&H2&H3&H4) H5].
        destruct (decide (jstatus (ctx j) = Queued)) as [Hjq|Hjq].
        * chg p_limbo. cbn. rewrite !qlist_put, stored_put, bool_decide_true by done.
          repeat split; try done; apply normal_norm.
        * destruct Hst as [?|Hst]; [done|]. chg p_override_done.
          cbn. rewrite !qlist_put, stored_put, bool_decide_true by done.
          repeat split; try done; [apply normal_norm|].
          apply is_done_status in Edn. apply is_done_status. cbn. by rewrite <-Hst.
      + exfalso. unfold is_queued, is_running, is_done in *. destruct (jstatus (ctx ex)); done.
    - (* cancel *)
      assert (jid j = id') as Hid.
      { destruct (Ha id') as [p' Hp']. destruct (at_queued _ _ _ _ Hp' Ex Hq); subst p'; cbn in Hp'; tauto. }
      destruct (decide (id = id')) as [->|Hne].
      + pose proof (at_queued _ _ _ _ Hp Ex Hq) as Hpp.
        assert (cnt id' (qlist w Running) = 0%nat ∧ filter (λ t, tid t = id') ts = [] ∧ normal j) as (C2 & C3 & Hn).
        { destruct Hpp as [->| ->]; cbn in Hp; destruct Hp as [(_&?&?&?) (?&?&?)]; done. }
        chg p_cancel. cbn. rewrite stored_rem, stored_save, stored_tick, !qlist_rem, !qlist_save, !qlist_tick.
        rewrite bool_decide_true by done.
        change (bool_decide (Queued = Queued)) with true. change (bool_decide (Running = Queued)) with false.
        cbn iota. rewrite cnt_remove, bool_decide_true by done.
        pose proof (normal_can _ (now_ms clock w) Hn) as Hn'. rewrite Hn'. done.
      + frame Hp.
        * rewrite stored_rem, stored_save, stored_tick. rewrite bool_decide_false; [done|]. change (id ≠ jid j). congruence.
        * rewrite qlist_rem, qlist_save, qlist_tick. change (bool_decide (Queued = Queued)) with true. cbn iota.
          by rewrite cnt_remove, bool_decide_false by done.
        * rewrite qlist_rem. change (bool_decide (Running = Queued)) with false. cbn iota.
          by rewrite qlist_save, qlist_tick.
        * done.
    - (* retry *)
      assert (jid j = id') as Hid.
      { destruct (Ha id') as [p' Hp']. pose proof (at_done _ _ _ _ Hp' Ex Hd). subst p'; cbn in Hp'; tauto. }
      assert (jstatus (ctx j) ≠ Queued ∧ jstatus (ctx j) ≠ Running) as [HnQ HnR].
      { apply is_done_status in Hd. split; intuition congruence. }
      destruct (decide (id = id')) as [->|Hne].
      + assert (p = PDone j) as -> by by eapply at_done. cbn in Hp. destruct Hp as [(H1&H2&H3&H4) (H5&H6&H7)].
        chg p_retry. cbn. rewrite stored_do_re_enqueue, !qlist_do_re_enqueue. cbv beta zeta.
        rewrite (bool_decide_true (id' = jid j)) by done.
        rewrite (bool_decide_false (Queued = jstatus (ctx j))), (bool_decide_false (Running = jstatus (ctx j))) by congruence.
        change (bool_decide (Queued = Queued)) with true. change (bool_decide (Running = Queued)) with false.
        cbn iota. rewrite cnt_cons, bool_decide_true by done. rewrite H2, H3.
        pose proof (normal_enq _ (now_ms clock w) H6) as Hn'. rewrite Hn'. done.
      + frame Hp.
        * rewrite stored_do_re_enqueue. rewrite bool_decide_false; [done|]. congruence.
        * rewrite qlist_do_re_enqueue. cbv beta zeta. rewrite (bool_decide_false (Queued = jstatus (ctx j))) by congruence.
          change (bool_decide (Queued = Queued)) with true. cbn iota.
          by rewrite cnt_cons, bool_decide_false by congruence.
        * rewrite qlist_do_re_enqueue. cbv beta zeta. rewrite (bool_decide_false (Running = jstatus (ctx j))) by congruence. done.
        * done.
    - (* pick *)
      destruct (Ha id') as [p' Hp'].
      destruct (at_waiting _ _ _ Hp') as [j0 ->].
      { cbn. rewrite El. apply elem_of_app; right. by apply elem_of_list_singleton. }
      cbn in Hp'. destruct Hp' as [(H1&H2&H3&H4) (Hid&Hn&Hsq)]. cbn in H1. assert (j0 = j) as -> by congruence.
      assert (qlist (w_save (w_tick (w_tick w)) j') Queued = l ++ [id']) as El'.
      { by rewrite qlist_save, !qlist_tick. }
      rewrite El, cnt_app, cnt_cons, cnt_nil, bool_decide_true in H2 by done.
      destruct (decide (id = id')) as [->|Hne].
      + destruct (at_queued _ _ _ _ Hp Ex ltac:(by apply is_queued_status)) as [->| ->].
        2:{ cbn in Hp. destruct Hp as [(_&H&_) _]. rewrite El, cnt_app, cnt_cons, bool_decide_true in H by done. lia. }
        chg p_pick. cbn [at_ sw tasks]. unfold at_. cbv beta zeta. cbn [sw tasks t_orig].
        rewrite stored_move, stored_save, !(qlist_pick name _ _ _ _ El'), qlist_save, !qlist_tick.
        rewrite (bool_decide_true (id' = jid j')) by done.
        rewrite cnt_cons, bool_decide_true, H3 by done.
        pose proof (normal_prc _ (now_ms clock (w_tick w)) Hn) as Hn'.
        fold j' in Hn'. unfold tasks_of. cbn [tasks]. rewrite list.filter_app.
        unfold tasks_of in H4; cbn [tasks] in H4. rewrite H4.
        rewrite filter_cons_True by done. cbn. rewrite Hn'. repeat split; try done. lia.
      + frame Hp.
        * rewrite stored_move, stored_save, !stored_tick. rewrite bool_decide_false; [done|]. change (id ≠ jid j). congruence.
        * rewrite (qlist_pick name _ _ _ _ El'), El, cnt_app, cnt_cons, bool_decide_false by congruence.
          rewrite cnt_nil. lia.
        * rewrite (qlist_pick name _ _ _ _ El'), cnt_cons, bool_decide_false by congruence.
          by rewrite qlist_save, !qlist_tick.
        * unfold tasks_of; cbn [tasks]. rewrite list.filter_app, filter_cons_False, filter_nil, app_nil_r; [done|].
          change (jid j ≠ id). congruence.
    - (* drop: impossible *)
      pose proof (at_task_of _ _ _ Ha Et) as Hpt. cbn in Hpt. destruct Hpt as [_ [_ Hok']].
      apply task_ok_jid in Hok' as [_ Hrun]. unfold is_cancelled in Ec. rewrite Hrun in Ec. done.
    - (* hook *)
      pose proof (at_task_of _ _ _ Ha Et) as Hpt. cbn in Hpt. destruct Hpt as [(H1&H2&H3&H4) [_ Hok']].
      destruct (decide (id = tid t)) as [->|Hne].
      2:{ frame Hp; [done|done|done|]. unfold tasks_of; cbn [tasks]. eapply tasks_of_insert_ne; eauto. }
      assert (p = PTask t) as ->.
      { pose proof Hp as Hp2. destruct p; unfold at_ in Hp2; cbv beta zeta in Hp2; cbn in Hp2.
        1: destruct Hp2 as (_&_&_&HT). 2,3,5,6: destruct Hp2 as [(_&_&_&HT) _].
        1,2,3,4,5: rewrite HT in H4; discriminate.
        destruct Hp2 as [(_&_&_&HT) _]. rewrite HT in H4. by injection H4 as ->. }
      chg p_hook. unfold at_. cbv beta zeta. cbn [sw tasks t_orig].
      split.
      { split; [done|]. split; [done|]. split; [done|]. unfold tasks_of; cbn [tasks].
        eapply tasks_of_insert_eq; eauto. }
      split; [done|]. destruct Hok' as (Hn&Hr&Hj). split; [done|]. split; [done|]. cbn. by rewrite Eph in Hj.
    - (* run *)
      pose proof (at_task_of _ _ _ Ha Et) as Hpt. cbn in Hpt. destruct Hpt as [(H1&H2&H3&H4) [_ Hok']].
      pose proof (task_ok_jid _ Hok') as [Hjid _].
      destruct (decide (id = tid t)) as [->|Hne].
      2:{ eexists _, []. split; [eapply at_frame; [exact Hp|cbn [sw tasks]; try done..]|].
          - unfold tasks_of; cbn [tasks]. eapply tasks_of_insert_ne; eauto.
          - split; [by apply p_stay|]. unfold runs_of. cbn [runs].
            rewrite list.filter_app, filter_cons_False, filter_nil; [done|]. change (jid (t_job t) ≠ id). congruence. }
      assert (p = PTask t) as ->.
      { pose proof Hp as Hp2. destruct p; unfold at_ in Hp2; cbv beta zeta in Hp2; cbn in Hp2.
        1: destruct Hp2 as (_&_&_&HT). 2,3,5,6: destruct Hp2 as [(_&_&_&HT) _].
        1,2,3,4,5: rewrite HT in H4; discriminate.
        destruct Hp2 as [(_&_&_&HT) _]. rewrite HT in H4. by injection H4 as ->. }
      eexists _, _. split; [|split; [eapply p_run; eauto|]].
      2:{ unfold runs_of. cbn [runs]. rewrite list.filter_app, filter_cons_True, filter_nil; [done|]. done. }
      unfold at_. cbv beta zeta. cbn [sw tasks t_orig].
      split.
      { split; [done|]. split; [done|]. split; [done|]. unfold tasks_of; cbn [tasks].
        eapply tasks_of_insert_eq; eauto. }
      split; [done|]. destruct Hok' as (Hn&Hr&Hj). split; [done|]. split; [done|]. cbn. rewrite Eph in Hj.
      by rewrite Hj.
    - (* return *)
      pose proof (at_task_of _ _ _ Ha Et) as Hpt. cbn in Hpt. destruct Hpt as [(H1&H2&H3&H4) [_ Hok']].
      destruct (decide (id = tid t)) as [->|Hne].
      2:{ frame Hp; [done|done|done|]. unfold tasks_of; cbn [tasks]. eapply tasks_of_insert_ne; eauto. }
      assert (p = PTask t) as ->.
      { pose proof Hp as Hp2. destruct p; unfold at_ in Hp2; cbv beta zeta in Hp2; cbn in Hp2.
        1: destruct Hp2 as (_&_&_&HT). 2,3,5,6: destruct Hp2 as [(_&_&_&HT) _].
        1,2,3,4,5: rewrite HT in H4; discriminate.
        destruct Hp2 as [(_&_&_&HT) _]. rewrite HT in H4. by injection H4 as ->. }
      chg p_return. unfold at_. cbv beta zeta. cbn [sw tasks t_orig].
      split.
      { split; [done|]. split; [done|]. split; [done|]. unfold tasks_of; cbn [tasks].
        eapply tasks_of_insert_eq; eauto. }
      split; [done|]. destruct Hok' as (Hn&Hr&Hj). split; [done|]. split; [done|]. cbn.
      rewrite Eph in Hj. rewrite Hj. by eexists.
    - (* tail *)
      pose proof (at_task_of _ _ _ Ha Et) as Hpt. cbn in Hpt. destruct Hpt as [(H1&H2&H3&H4) [_ Hok']].
      pose proof (task_ok_jid _ Hok') as [Hjid Hjst].
      destruct (judge prof sched clock (reads w) (t_job t) u) as [k1 v] eqn:Ej.
      pose proof (judge_spec _ _ _ _ _ Ej) as [Hk Hv].
      assert (do_tail prof sched name clock w (t_job t) u = do_verdict name clock (w_reads w k1) v) as Edo.
      { unfold do_tail. by rewrite Ej. }
      assert (reads (do_verdict name clock (w_reads w k1) v) = match v with VPanic => k1 | _ => S k1 end) as Erd.
      { by destruct v. }
      rewrite Edo.
      destruct (decide (id = tid t)) as [->|Hne].
      + assert (p = PTask t) as ->.
        { pose proof Hp as Hp2. destruct p; unfold at_ in Hp2; cbv beta zeta in Hp2; cbn in Hp2.
          1: destruct Hp2 as (_&_&_&HT). 2,3,5,6: destruct Hp2 as [(_&_&_&HT) _].
          1,2,3,4,5: rewrite HT in H4; discriminate.
          destruct Hp2 as [(_&_&_&HT) _]. rewrite HT in H4. by injection H4 as ->. }
        assert (filter (λ t', tid t' = tid t) (delete i ts) = []) as HTd.
        { by apply tasks_of_delete_eq. }
        cbn [sw]. rewrite Erd.
        destruct v as [nj|nj|nj|]; try (destruct Hv as [Hv1 Hv2]; rewrite Hjid in Hv1; rewrite Hjst in Hv2).
        * chg p_requeue. cbn. rewrite stored_do_re_enqueue, !qlist_do_re_enqueue. cbv beta zeta. rewrite Hv1, Hv2.
          rewrite (bool_decide_true (tid t = tid t)) by done.
          change (bool_decide (Queued = Running)) with false. change (bool_decide (Running = Running)) with true.
          change (bool_decide (Queued = Queued)) with true. change (bool_decide (Running = Queued)) with false.
          cbn iota. rewrite cnt_cons, cnt_remove, !bool_decide_true by done.
          change (qlist (w_reads w k1) Queued) with (qlist w Queued). cbn in H2. rewrite H2.
          repeat split; try done; apply normal_norm.
        * chg p_failed. cbn. rewrite stored_do_fail, !qlist_do_fail, Hv1.
          rewrite (bool_decide_true (tid t = tid t)) by done.
          rewrite cnt_remove, !bool_decide_true by done.
          change (qlist (w_reads w k1) Queued) with (qlist w Queued). cbn in H2. rewrite H2.
          repeat split; try done; apply normal_norm.
        * chg p_finished. cbn. rewrite stored_do_finish, !qlist_do_finish, Hv1.
          rewrite (bool_decide_true (tid t = tid t)) by done.
          rewrite cnt_remove, !bool_decide_true by done.
          change (qlist (w_reads w k1) Queued) with (qlist w Queued). cbn in H2. rewrite H2.
          repeat split; try done; apply normal_norm.
        * chg p_panicked. cbn. destruct Hok' as (Hn&Hr&_). repeat split; done.
      + assert (tasks_of id (Sys (do_verdict name clock (w_reads w k1) v) c (delete i ts) true rs) =
                tasks_of id (Sys w c ts true rs)) as HT.
        { unfold tasks_of; cbn [tasks]. eapply tasks_of_delete_ne; eauto. }
        eexists _, []. split; [eapply at_frame; [exact Hp|cbn [sw]..]|split; [apply p_stay; cbn [sw]; rewrite Erd; destruct v; lia|cbn; by rewrite app_nil_r]].
        all: destruct v as [nj|nj|nj|]; try (destruct Hv as [Hv1 Hv2]; rewrite Hjid in Hv1; rewrite Hjst in Hv2); try done; cbn [do_verdict].
        * rewrite stored_do_re_enqueue, bool_decide_false; [done|congruence].
        * rewrite stored_do_fail, bool_decide_false; [done|congruence].
        * rewrite stored_do_finish, bool_decide_false; [done|congruence].
        * rewrite qlist_do_re_enqueue. cbv beta zeta. rewrite Hv1, Hv2.
          change (bool_decide (Queued = Running)) with false. change (bool_decide (Queued = Queued)) with true.
          cbn iota. by rewrite cnt_cons, bool_decide_false by congruence.
        * by rewrite qlist_do_fail.
        * by rewrite qlist_do_finish.
        * rewrite qlist_do_re_enqueue. cbv beta zeta. rewrite Hv1, Hv2.
          change (bool_decide (Running = Running)) with true. change (bool_decide (Running = Queued)) with false.
          cbn iota. by rewrite cnt_remove, bool_decide_false by congruence.
        * rewrite qlist_do_fail, Hv1. by rewrite cnt_remove, bool_decide_false by congruence.
        * rewrite qlist_do_finish, Hv1. by rewrite cnt_remove, bool_decide_false by congruence.
    - (* die *)
      destruct p as [|j|j|t|j|j].
      4:{ cbn in Hp. destruct Hp as [(H1&H2&H3&H4) (H5&H6&H7&H8)]. chg p_die. cbn. done. }
      all: frame Hp; try done; cbn in Hp; symmetry; tauto.
  Qed.
End life.
