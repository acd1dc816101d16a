(** Every number stays in the range of its type. *)
From Verif Require Import SpecRange JsonFacts BackendFacts SubmitFacts WorldFacts MultiFacts.

Lemma opt_ok_fmap {A B} (f : A → B) (P : A → Prop) (Q : B → Prop) o :
  (∀ a, P a → Q (f a)) → opt_ok P o → opt_ok Q (f <$> o).
Proof. intros H. destruct o; cbn; [apply H|done]. Qed.
Lemma time_ok_trunc t : time_ok t → time_ok (trunc_us t).
Proof.
  unfold time_ok, dt_min, dt_max, trunc_us, of_us, to_us. intros [H1 H2].
  pose proof (Z.div_mod t 1000 ltac:(lia)). pose proof (Z.mod_pos_bound t 1000 ltac:(lia)).
  split; [|lia]. assert (-8334601228800 * 1000000 <= t / 1000); [|lia].
  apply Z.div_le_lower_bound; lia.
Qed.
Lemma dur_round d : dur_to_us (round_us d) = dur_to_us d.
Proof.
  pose proof (round_us_idem d) as H. unfold round_us at 1 in H. unfold round_us in H at 2. lia.
Qed.
Lemma cc_ok_norm c : cc_ok c → cc_ok (norm_cc c).
Proof.
  intros (H1 & H2 & H3). split; [done|]. split; [done|]. by eapply opt_ok_fmap; [apply time_ok_trunc|].
Qed.
Lemma type_ok_norm t : type_ok t → type_ok (norm_type t).
Proof.
  destruct t as [|a|e n r c]; cbn; [done|apply time_ok_trunc|].
  intros (H1 & H2 & H3). auto using time_ok_trunc, cc_ok_norm.
Qed.
Lemma retry_ok_norm r : retry_ok r → retry_ok (norm_retry r).
Proof.
  intros (H1 & H2 & H3). split; [done|]. split; [done|]. unfold norm_retry; cbn [strat].
  destruct (strat r); cbn in *; by rewrite dur_round.
Qed.

Section ok.
  Context {M : Type} `{SM : Serde M}.
  Lemma job_ok_norm n (j j' : job M) : ctx j' = norm_ctx (ctx j) → job_ok n j → job_ok n j'.
  Proof.
    unfold job_ok. intros ->. intros (H1 & H2 & H3). cbn. split; [by apply type_ok_norm|].
    split; [by eapply opt_ok_fmap; [apply retry_ok_norm|]|]. done.
  Qed.
  Lemma job_ok_mono n n' (j : job M) : (n <= n')%nat → job_ok n j → job_ok n' j.
  Proof. unfold job_ok. intros Hn H. intuition lia. Qed.

  (** A stored value. *)
  Definition val_ok (n : nat) (v : value) : Prop := ∃ j : job M, v = enc_job j ∧ job_ok n j.
  Lemma val_ok_read n v js (j : job M) : val_ok n v → v = Some js → dec_job js = Some j → job_ok n j.
  Proof.
    intros (j0 & -> & Hj) He Hd. eapply job_ok_norm; [|exact Hj]. by eapply dec_enc_ctx.
  Qed.

  (** Programs that write only such values, if they read only such values. *)
  Definition call_ok (n : nat) {X : Set} (e : eff X) : Prop :=
    match e with SUpsert _ _ v => val_ok n v | _ => True end.
  Definition answer_ok (n : nat) {X : Set} (e : eff X) : X → Prop :=
    match e in eff X return X → Prop with
    | SGet _ _ => λ x, match x with Ok (Some v) => val_ok n v | _ => True end
    | Now => λ t, time_ok t
    | _ => λ _, True
    end.
  Fixpoint safe (n : nat) {A} (p : prog A) (Q : A → Prop) : Prop :=
    match p with
    | Ret a => Q a
    | Panic | Diverge => True
    | Eff e k => call_ok n e ∧ ∀ x, answer_ok n e x → safe n (k x) Q
    end.
  Lemma safe_bind n {A B} (p : prog A) (f : A → prog B) Q R :
    safe n p Q → (∀ a, Q a → safe n (f a) R) → safe n (bind p f) R.
  Proof.
    induction p as [a| | |X e k IH]; cbn; intros Hp Hf; [auto|done|done|].
    destruct Hp as [Hc Hk]. split; [done|]. intros x Hx. by apply IH; [apply Hk|].
  Qed.
  Lemma safe_mono n {A} (p : prog A) (Q R : A → Prop) : (∀ a, Q a → R a) → safe n p Q → safe n p R.
  Proof.
    intros HQ. induction p as [a| | |X e k IH]; cbn; [apply HQ|done|done|].
    intros [Hc Hk]. split; [done|]. auto.
  Qed.

  (** Backends that give back what they got. *)
  Definition sane {W} (h : handler W) (I : nat → W → Prop) : Prop :=
    ∀ n (X : Set) (e : eff X) w, I n w → call_ok n e → I n (h X e w).1 ∧ answer_ok n e (h X e w).2.
  Lemma safe_run {W} (h : handler W) I n {A} (p : prog A) Q w :
    sane h I → I n w → safe n p Q →
    I n (run h p w).1 ∧ match (run h p w).2 with Done a => Q a | _ => True end.
  Proof.
    intros Hh. revert w. induction p as [a| | |X e k IH]; intros w Hw Hp; cbn in *; try done.
    destruct Hp as [Hc Hk]. destruct (Hh n X e w Hw Hc) as [H1 H2].
    destruct (h X e w) as [w' x]. apply IH; auto.
  Qed.
  Lemma safe_run_n {W} (h : handler W) I n {A} m (p : prog A) Q w :
    sane h I → I n w → safe n p Q → I n (run_n h m p w).
  Proof.
    intros Hh. revert p w. induction m as [|m IH]; intros p w Hw Hp; [by destruct p|].
    destruct p as [a| | |X e k]; cbn in *; try done.
    destruct Hp as [Hc Hk]. destruct (Hh n X e w Hw Hc) as [H1 H2].
    destruct (h X e w) as [w' x]. apply IH; auto.
  Qed.
End ok.

Lemma ms_ok t : time_ok t → i64_ok (ms_of t).
Proof.
  unfold time_ok, dt_min, dt_max, i64_ok, ms_of. intros [H1 H2]. split.
  - apply Z.div_le_lower_bound; lia.
  - apply Z.div_le_upper_bound; lia.
Qed.
Lemma norm_ok prof z n : i32_norm prof z = Some n → i32_ok n.
Proof.
  unfold i32_norm, in_i32, i32_ok, i32_min, i32_max, wrap32.
  destruct (_ && _) eqn:E.
  - intros [= <-]. apply andb_prop in E as [E1 E2]. lia.
  - destruct prof; [done|]. intros [= <-].
    pose proof (Z.mod_pos_bound (z + 2147483648) 4294967296 ltac:(lia)). lia.
Qed.
Lemma dt_add_ok t d t' : dt_add t d = Some t' → time_ok t'.
Proof.
  unfold dt_add, time_ok. destruct (_ && _) eqn:E; [|done]. intros [= <-].
  apply andb_prop in E as [E1 E2]. lia.
Qed.

Section programs.
  Context {M : Type} `{SM : Serde M}.
  Context (prof : profile).
  Context (sched : string → option (time → option time)).
  Context (name : string).
  Context (Hsched : ∀ e f t t', sched e = Some f → f t = Some t' → time_ok t').
  Context (n : nat).
  Notation job_ok := (job_ok n).
  Notation safe := (safe (M := M) n).
  Notation any := (λ _, True).

  Lemma safe_get id :
    safe (get_from_storage (M := M) id) (λ r, match r with Ok (Some j) => job_ok j | _ => True end).
  Proof.
    cbn. split; [done|]. intros [[[js|]|]|] Hx; cbn; try done.
    destruct (dec_job js) as [j|] eqn:E; [|done]. by eapply val_ok_read.
  Qed.
  Lemma safe_upsert k (j : job M) : job_ok j → safe (upsert_to_storage k j) any.
  Proof. intros Hj. split; [by exists j|done]. Qed.
  Definition ok_job (r : result (job M)) : Prop := match r with Ok j => job_ok j | Err _ => True end.
  Lemma safe_save (j : job M) : job_ok j → safe (save_and_notify j) ok_job.
  Proof.
    intros Hj. eapply safe_bind; [by apply safe_upsert|]. intros [[]|] _; [|done]. cbn. auto.
  Qed.
  Lemma safe_ms {A} (f : Z → prog A) Q : (∀ t, i64_ok t → safe (f t) Q) → safe (bind get_now_as_ms f) Q.
  Proof. intros Hf. cbn. split; [done|]. intros t Ht. apply Hf. by apply ms_ok. Qed.
  Lemma safe_enqueue_job (j : job M) : job_ok j → safe (job_enqueue j) ok_job.
  Proof. intros Hj. apply safe_ms. intros t Ht. apply safe_save. unfold SpecRange.job_ok in *. cbn. tauto. Qed.
  Lemma safe_process_job (j : job M) : job_ok j → safe (job_process j) ok_job.
  Proof. intros Hj. apply safe_ms. intros t Ht. apply safe_save. unfold SpecRange.job_ok in *. cbn. tauto. Qed.
  Lemma safe_finish_job (j : job M) : job_ok j → safe (job_finish j) ok_job.
  Proof. intros Hj. apply safe_ms. intros t Ht. apply safe_save. unfold SpecRange.job_ok in *. cbn. tauto. Qed.
  Lemma safe_cancel_job (j : job M) : job_ok j → safe (job_cancel j) ok_job.
  Proof. intros Hj. apply safe_ms. intros t Ht. apply safe_save. unfold SpecRange.job_ok in *. cbn. tauto. Qed.
  Lemma safe_fail_job (j : job M) : job_ok j → safe (job_fail j) ok_job.
  Proof. intros Hj. apply safe_ms. intros t Ht. apply safe_save. unfold SpecRange.job_ok in *. cbn. tauto. Qed.

  Lemma safe_do {X : Set} (e : eff X) : call_ok (M := M) n e → safe (do e) any.
  Proof. intros H. by split. Qed.
  Lemma safe_enqueue (j : job M) : job_ok j → safe (enqueue name j) any.
  Proof.
    intros Hj. eapply safe_bind; [by apply safe_do|]. intros [[]|] _; [|done].
    eapply safe_bind; [by apply safe_enqueue_job|]. intros [|] _; done.
  Qed.
  Lemma safe_re_enqueue (j : job M) : job_ok j → safe (re_enqueue name j) any.
  Proof.
    intros Hj. eapply safe_bind; [by apply safe_do|]. intros [[]|] _; [|done].
    eapply safe_bind; [by apply safe_enqueue_job|]. intros [|] _; [|done].
    eapply safe_bind; [by apply safe_do|]. done.
  Qed.
  Lemma safe_submit (j : job M) ec : job_ok j → safe (run_with_config name j ec) any.
  Proof.
    intros Hj. eapply safe_bind; [apply safe_get|]. intros [[ex|]|] He; [|by apply safe_enqueue|done].
    eapply (safe_bind _ _ _ any).
    { destruct (_ && _); [by apply safe_upsert|done]. }
    intros [[]|] _; [|done]. destruct (_ && _); [|done].
    eapply safe_bind; [by apply safe_enqueue|]. intros [|] _; done.
  Qed.
  Lemma safe_cancel id : safe (cancel_job (M := M) name id) any.
  Proof.
    eapply safe_bind; [apply safe_get|]. intros [[j|]|] Hj; [|done..].
    destruct (is_queued j); [|done]. eapply safe_bind; [by apply safe_cancel_job|].
    intros [|] _; [|done]. eapply safe_bind; [by apply safe_do|]. intros [|] _; done.
  Qed.
  Lemma safe_retry id : safe (retry_job (M := M) name id) any.
  Proof.
    eapply safe_bind; [apply safe_get|]. intros [[j|]|] Hj; [|done..].
    destruct (is_done j); [|done]. eapply safe_bind; [by apply safe_re_enqueue|].
    intros [|] _; done.
  Qed.
  Definition ok_jobs (r : result (list (job M))) : Prop := match r with Ok js => Forall job_ok js | Err _ => True end.
  Lemma safe_batch total ids (ready : list (job M)) :
    Forall job_ok ready → safe (pick_batch name total ids ready) ok_jobs.
  Proof.
    revert ready. induction ids as [|id ids IH]; intros ready Hr; [done|]. cbn [pick_batch].
    assert (safe (let? _ := do (QMove (format_queue_name name Queued) (format_queue_name name Queued) 1 Back Front) in
                  pick_batch name total ids ready) ok_jobs) as Hrot.
    { eapply safe_bind; [by apply safe_do|]. intros [|] _; [by apply IH|done]. }
    eapply safe_bind; [apply safe_get|]. intros [[j|]|] Hj; [|done|done].
    eapply (safe_bind _ _ _ any); [cbn; auto|]. intros now _.
    destruct (_ && _ && _); [|done].
    eapply safe_bind; [by apply safe_process_job|]. intros [j'|] Hj'; [|done].
    eapply safe_bind; [by apply safe_do|]. intros [|] _; [|done].
    apply IH. apply Forall_app. by rewrite Forall_singleton.
  Qed.
  Lemma safe_loop fuel total (ready : list (job M)) c :
    Forall job_ok ready → safe (pick_loop prof name fuel total ready c) ok_jobs.
  Proof.
    revert ready c. induction fuel as [|fuel IH]; intros ready c Hr; [done|]. cbn [pick_loop].
    eapply safe_bind; [by apply safe_do|]. intros [ids|] _; [|done].
    destruct (i32_norm _ _); [|done].
    eapply safe_bind; [by apply safe_batch|]. intros [r|] Hr'; [|done].
    destruct (_ <=? _)%nat; [done|]. destruct (_ <=? _); [done|]. by apply IH.
  Qed.
  Lemma safe_pick m : safe (pick_jobs_to_process prof name m) ok_jobs.
  Proof.
    eapply safe_bind; [by apply safe_do|]. intros r _. cbv zeta. destruct (_ <=? _)%nat; [by cbn|].
    eapply safe_bind; [by apply safe_do|]. intros [|] _; [by apply safe_loop|done].
  Qed.
  Definition task_ok (t : task M) : Prop := job_ok (t_orig t) ∧ job_ok (t_job t).
  Lemma safe_process c ts : Forall task_ok ts → safe (process_jobs prof name c ts) (Forall task_ok).
  Proof.
    intros Ht. eapply safe_bind; [apply safe_pick|]. intros [js|] Hj; cbn in *; [|done].
    apply Forall_app. split; [done|]. apply Forall_map. eapply list.Forall_impl; [exact Hj|]. done.
  Qed.
  Lemma safe_next_tick (j : job M) : job_ok j →
    safe (next_tick prof sched j) (λ o, match o with Some j' => job_ok j' | None => True end).
  Proof.
    intros Hj. cbn. split; [done|]. intros now _. destruct (jtype (ctx j)) as [| |e s r cc] eqn:E; [done..|].
    destruct (sched e) as [f|] eqn:Es; [|done]. cbn. split; [done|]. intros now2 _.
    assert (∀ j' : job M, job_ok j' → safe
       (if match max_repeat cc with Some m => m <? r | None => false end then Ret None
        else if match end_at cc with Some t => t <? now | None => false end then Ret None
        else Ret (Some j')) (λ o, match o with Some j' => job_ok (j' : job M) | None => True end)) as Hc.
    { intros j' Hj'. destruct (match max_repeat cc with Some _ => _ | None => _ end); [done|].
      by destruct (match end_at cc with Some _ => _ | None => _ end). }
    destruct (f now2) as [up|] eqn:Ef; [|by apply Hc].
    destruct (i32_norm prof (r + 1)) as [k|] eqn:Ek; [|done].
    apply Hc. unfold SpecRange.job_ok in *. rewrite E in Hj. cbn in *.
    pose proof (Hsched _ _ _ _ Es Ef). pose proof (norm_ok _ _ _ Ek). tauto.
  Qed.
  Lemma safe_finished (j : job M) : job_ok j → safe (mark_job_is_finished name j) any.
  Proof.
    intros Hj. eapply (safe_bind _ _ _ any); [cbn; auto|]. intros _ _.
    eapply safe_bind; [by apply safe_finish_job|]. intros [|] _; [|done].
    eapply safe_bind; [by apply safe_do|]. done.
  Qed.
  Lemma safe_failed (j : job M) : job_ok j → safe (mark_job_is_failed name j) any.
  Proof.
    intros Hj. eapply safe_bind; [by apply safe_fail_job|]. intros [|] _; [|done].
    eapply (safe_bind _ _ _ any); [cbn; auto|]. done.
  Qed.
  Lemma safe_finish (j : job M) b : job_ok j → safe (execute_finish prof sched name j b) any.
  Proof.
    intros Hj. eapply safe_bind; [by apply safe_next_tick|]. intros [nj|] Hn; [by apply safe_re_enqueue|].
    destruct b; [by apply safe_failed|by apply safe_finished].
  Qed.
  Definition user_ok (u : user_result M) : Prop :=
    match ur_retry u with CustomRetryAt r o => retry_ok r ∧ opt_ok time_ok o | DefaultRetryAt _ => True end.
  Lemma safe_call_retry r i :
    retry_ok r → match i with CustomRetryAt r o => retry_ok r ∧ opt_ok time_ok o | DefaultRetryAt _ => True end →
    safe (call_retry_at prof r i) (λ x, retry_ok x.1 ∧ opt_ok time_ok x.2).
  Proof.
    intros Hr Hi. destruct i as [f|r' o]; [|done]. cbn [call_retry_at]. destruct (_ && _); [|done].
    cbn. split; [done|]. intros now _. destruct (retry_retry_at prof r now) as [[r' t]|] eqn:E; [|done]. cbn.
    unfold retry_retry_at in E. destruct (i32_norm prof _) as [k|] eqn:Ek; [|done]. cbn in E.
    apply norm_ok in Ek. destruct Hr as (H1 & H2 & H3). destruct (strat r) as [d|d] eqn:Es; cbn in H3.
    - destruct (dt_add now d) as [t'|] eqn:Ed; [|done]. injection E as <- <-. apply dt_add_ok in Ed.
      split; [|done]. split; [done|]. split; [done|]. cbn. by rewrite ?Es.
    - destruct (pow2_i32 prof k) as [q|]; [|done]. cbn in E.
      destruct (dt_add now (d * q)) as [t'|] eqn:Ed; [|done]. injection E as <- <-. apply dt_add_ok in Ed.
      split; [|done]. split; [done|]. split; [done|]. cbn. by rewrite ?Es.
  Qed.
  Lemma safe_tail (j : job M) u : job_ok j → user_ok u → safe (execute_tail prof sched name j u) any.
  Proof.
    intros Hj Hu. unfold execute_tail. destruct (jretry (ctx j)) as [r|] eqn:E; [|by apply safe_finish].
    eapply safe_bind.
    { apply safe_call_retry; [|exact Hu]. unfold SpecRange.job_ok in Hj. rewrite E in Hj. cbn in Hj. tauto. }
    intros [r' [t|]] [H1 H2]; cbn in H1, H2.
    - apply safe_re_enqueue. unfold SpecRange.job_ok in *. cbn. tauto.
    - apply safe_finish. unfold SpecRange.job_ok in *. cbn. tauto.
  Qed.
End programs.

Section steps.
  Context {M : Type} `{SM : Serde M}.
  Context (prof : profile).
  Context (sched : string → option (time → option time)).
  Context (name : string).
  Context (Hsched : ∀ e f t t', sched e = Some f → f t = Some t' → time_ok t').

  Lemma task_ok_mono n (t : task M) : task_ok n t → task_ok (S n) t.
  Proof. intros [H1 H2]. split; (eapply job_ok_mono; [|eassumption]; lia). Qed.
  (** One poll may add one to a count in memory. *)
  Lemma safe_task n (t : task M) u : task_ok n t → user_ok u →
    safe (M := M) n (task_step prof sched name t u)
      (λ x, match x.1 with Some t' => task_ok (S n) t' | None => True end ∧ Forall (job_ok (S n)) x.2).
  Proof.
    intros [H1 H2] Hu.
    assert (job_ok (S n) (t_orig t)) as H1' by (eapply job_ok_mono; [|exact H1]; lia).
    assert (job_ok (S n) (t_job t)) as H2' by (eapply job_ok_mono; [|exact H2]; lia).
    unfold task_step. destruct (t_phase t).
    - destruct (is_cancelled _); cbn; (split; [done|]); intros; cbn; auto.
      split; [by split|done].
    - cbn. assert (job_ok (S n) (set_ctx (t_job t) (set_run_count (ctx (t_job t)) (S (run_count (ctx (t_job t))))))) as H.
      { unfold job_ok in H2 |- *. cbn. intuition lia. }
      split; [by split|]. by rewrite Forall_singleton.
    - cbn. split; [done|]. intros _ _. split; [|done]. split; [done|]. exact H2'.
    - eapply (safe_bind n _ _ (λ _, True)); [|by cbn].
      eapply safe_bind; [by apply safe_tail|]. intros [|] _; [done|].
      eapply safe_bind; [by apply safe_failed|]. done.
  Qed.
  Lemma safe_event n c ts (e : event M) :
    Forall (task_ok n) ts → event_ok n e →
    safe (M := M) n (ev_prog prof sched name c ts e)
      (λ x, Forall (task_ok (S n)) x.1.1.2 ∧ Forall (job_ok (S n)) x.1.2 ∧
        match x.2 with RJob (Some j) => job_ok (S n) j | _ => True end).
  Proof.
    intros Ht He.
    assert (Forall (task_ok (S n)) ts) as Ht' by (eapply list.Forall_impl; [exact Ht|apply task_ok_mono]).
    destruct e as [j ec|id|id|id|c'| |i u| | |e m|]; cbn [ev_prog].
    - eapply safe_bind; [by apply safe_submit|]. by cbn.
    - eapply safe_bind; [by apply safe_cancel|]. by cbn.
    - eapply safe_bind; [apply safe_get|]. intros [[j|]|] Hj; cbn; try done.
      split; [done|]. split; [done|]. eapply job_ok_mono; [|exact Hj]. lia.
    - eapply safe_bind; [by apply safe_retry|]. by cbn.
    - by cbn.
    - eapply safe_bind; [by apply safe_process|]. intros ts' H. cbn. split; [|done].
      eapply list.Forall_impl; [exact H|apply task_ok_mono].
    - destruct (ts !! i) as [t|] eqn:Ei; [|by cbn].
      eapply safe_bind.
      { apply safe_task; [|exact He]. by eapply Forall_lookup_1. }
      intros [o js] [H1 H2]; cbn in *. split; [|done].
      destruct o as [t'|]; [by apply Forall_insert|by apply Forall_delete].
    - by cbn.
    - by cbn.
    - by cbn.
    - eapply safe_bind; [by apply (safe_process _ _ _ _ [])|]. intros ts' H. cbn. split; [|done].
      eapply list.Forall_impl; [exact H|apply task_ok_mono].
  Qed.
  Context {W : Type} (h : handler W) (I : nat → W → Prop).
  Context (Hh : sane (M := M) h I) (Hmono : ∀ n w, I n w → I (S n) w).
  Definition sys_ok (n : nat) (s : sys W M) : Prop :=
    I n (sw s) ∧ Forall (task_ok n) (tasks s) ∧ Forall (job_ok n) (runs s).
  Definition resp_ok (n : nat) (r : response M) : Prop := match r with RJob (Some j) => job_ok n j | _ => True end.
  Lemma runs_mono n (js : list (job M)) : Forall (job_ok n) js → Forall (job_ok (S n)) js.
  Proof. intros H. eapply list.Forall_impl; [exact H|]. intros j Hj. eapply job_ok_mono; [|exact Hj]. lia. Qed.
  Lemma commit_ok n s e : sys_ok n s → event_ok n e →
    sys_ok (S n) (commit prof sched name h s e).1 ∧ resp_ok (S n) (commit prof sched name h s e).2.
  Proof.
    intros (H1 & H2 & H3) He. unfold commit.
    destruct (safe_run h I n _ _ (sw s) Hh H1 (safe_event n (cfg s) (tasks s) e H2 He)) as [G1 G2].
    destruct (run h _ (sw s)) as [w [[[[c ts] js] r]| |]]; cbn in *.
    - destruct G2 as (G2 & G3 & G4). split; [|done]. split; [by apply Hmono|]. split; [done|].
      apply Forall_app. split; [by apply runs_mono|done].
    - split; [|done]. split; [by apply Hmono|]. split; [by constructor|by apply runs_mono].
    - split; [|done]. split; [by apply Hmono|]. split; [by constructor|by apply runs_mono].
  Qed.
  Lemma dead_resp_ok n (e : event M) : resp_ok n (dead_response e).
  Proof. by destruct e. Qed.
  Lemma stop_ok n s : sys_ok n s → sys_ok (S n) (Sys (sw s) (cfg s) [] false (runs s)).
  Proof. intros (H1 & H2 & H3). split; [by apply Hmono|]. split; [by constructor|by apply runs_mono]. Qed.
  Lemma same_ok n s : sys_ok n s → sys_ok (S n) s.
  Proof.
    intros (H1 & H2 & H3). split; [by apply Hmono|]. split; [|by apply runs_mono].
    eapply list.Forall_impl; [exact H2|apply task_ok_mono].
  Qed.
  Lemma step_ok n s e : sys_ok n s → event_ok n e →
    sys_ok (S n) (sys_step prof sched name h s e).1 ∧ resp_ok (S n) (sys_step prof sched name h s e).2.
  Proof.
    intros Hs He. unfold sys_step.
    assert (∀ e' m, event_ok n e' →
      sys_ok (S n) (Sys (run_n h m (ev_prog prof sched name (cfg s) (tasks s) e') (sw s)) (cfg s) [] false (runs s))) as Hin.
    { intros e' m He'. destruct Hs as (H1 & H2 & H3). split; [|split; [by constructor|by apply runs_mono]].
      apply Hmono. eapply safe_run_n; [done|done|by apply safe_event]. }
    destruct (alive s).
    - destruct e as [j ec|id|id|id|c'| |i u| | |e m|]; try (by apply commit_ok).
      + split; [by apply stop_ok|done].
      + split; [by apply stop_ok|done].
      + split; [|done]. cbn [fst]. cbn in He. destruct e; try (by apply Hin). by apply stop_ok.
      + split; [by apply same_ok|done].
    - destruct e as [j ec|id|id|id|c'| |i u| | |e m|]; try (split; [by apply same_ok|done]).
      + destruct e; (split; [|done]); try (by apply same_ok). by apply Hin.
      + by apply commit_ok.
  Qed.
  Lemma runs_ok n s es : sys_ok n s → events_ok n es →
    sys_ok (n + length es) (sys_run prof sched name h s es) ∧
    Forall (resp_ok (n + length es)) (responses prof sched name h s es).
  Proof.
    revert n s. induction es as [|e es IH]; intros n s Hs He.
    { cbn. rewrite Nat.add_0_r. by split. }
    destruct He as [He Hes]. destruct (step_ok n s e Hs He) as [G1 G2].
    destruct (IH (S n) _ G1 Hes) as [G3 G4]. cbn [length responses].
    replace (n + S (length es))%nat with (S n + length es)%nat by lia.
    split; [exact G3|]. apply list.Forall_cons. split; [|done].
    destruct ((sys_step prof sched name h s e).2) as [| |[j|]|]; try done. cbn in *.
    eapply job_ok_mono; [|exact G2]. lia.
  Qed.
End steps.

(** *** The backends *)
Section backends.
  Context {M : Type} `{SM : Serde M}.
  Context (clock : nat → time) (Hclock : ∀ k, time_ok (clock k)).
  Definition mem_ok (n : nat) (w : world) : Prop :=
    ∀ hash k v, mem_sget (st w) hash k = Some v → val_ok (M := M) n v.
  Lemma val_ok_mono n v : val_ok (M := M) n v → val_ok (M := M) (S n) v.
  Proof. intros (j & -> & Hj). exists j. split; [done|]. eapply job_ok_mono; [|exact Hj]. lia. Qed.
  Lemma mem_ok_mono n w : mem_ok n w → mem_ok (S n) w.
  Proof. intros H hash k v Hv. apply val_ok_mono. eauto. Qed.
  Lemma mem_ok_storages n w w' : storages (st w') = storages (st w) → mem_ok n w → mem_ok n w'.
  Proof. intros E H hash k v. unfold mem_sget. rewrite E. apply H. Qed.
  Lemma mem_sane : sane (M := M) (mem_h clock) mem_ok.
  Proof.
    intros n X e w Hw Hc. destruct e as [q it|f t m fd td|q it|q m d|q|hash key v|hash key| |m]; cbn.
    - split; [|done]. eapply mem_ok_storages; [|exact Hw]. apply mem_push_storages.
    - pose proof (mem_move_storages (st w) f t m fd td) as E. destruct (mem_move _ _ _ _ _ _) as [s l]. cbn in *.
      split; [|done]. by eapply mem_ok_storages; [|exact Hw].
    - split; [|done]. eapply mem_ok_storages; [|exact Hw]. apply mem_remove_storages.
    - done.
    - done.
    - split; [|done]. intros hash' k' v'. cbn [st set_st]. rewrite mem_upsert_sget.
      destruct (_ && _); [|apply Hw]. by intros [= <-].
    - split; [done|]. destruct (mem_sget (st w) hash key) as [v|] eqn:E; [|done]. by eapply Hw.
    - split; [exact Hw|apply Hclock].
    - split; [exact Hw|done].
  Qed.
  Definition faulty_ok (n : nat) (w : fworld) : Prop := mem_ok n (fw w).
  Lemma faulty_sane faults : sane (M := M) (faulty_h clock faults) faulty_ok.
  Proof.
    intros n X e w Hw Hc. destruct (mem_sane n X e (fw w) Hw Hc) as [H1 H2].
    unfold faulty_h, faulty_ok in *.
    destruct e; cbn [fail_ans]; try (destruct (faults (ops w))); destruct (mem_h clock _ _ (fw w)) as [w' x]; cbn in *; done.
  Qed.
End backends.

Section histories.
  Context {M : Type} `{SM : Serde M}.
  Context (prof : profile).
  Context (sched : string → option (time → option time)).
  Context (name : string).
  Context (clock : nat → time).
  Lemma ranges faults n (es : list (event M)) :
    (∀ k, time_ok (clock k)) → (∀ e f t t', sched e = Some f → f t = Some t' → time_ok t') →
    events_ok n es →
    let s := sys_run prof sched name (faulty_h clock faults) (sys_init (FWorld world_empty 0)) es in
    let m := (n + length es)%nat in
    (∀ id v, mem_sget (st (fw (sw s))) STORAGE_HASH id = Some v → ∃ j : job M, v = enc_job j ∧ job_ok m j) ∧
    (∀ id j, stored (fw (sw s)) id = Some j → job_ok m j) ∧
    (∀ t, t ∈ tasks s → job_ok m (t_orig t) ∧ job_ok m (t_job t)) ∧
    (∀ j, j ∈ runs s → job_ok m j) ∧
    (∀ j, RJob (Some j) ∈ responses prof sched name (faulty_h clock faults) (sys_init (FWorld world_empty 0)) es → job_ok m j).
  Proof.
    intros Hc Hs He s m.
    destruct (runs_ok prof sched name Hs (faulty_h clock faults) faulty_ok (faulty_sane clock Hc faults)
      ltac:(intros ? ?; apply mem_ok_mono) n (sys_init (FWorld world_empty 0)) es) as [(H1 & H2 & H3) H4]; [|done|].
    { split; [|by cbn]. intros hash k v. cbn. unfold mem_sget. cbn. by rewrite lookup_empty. }
    fold s m in H1, H2, H3, H4. split; [intros id v; apply H1|].
    split.
    { intros id j. unfold stored. destruct (mem_sget _ _ _) as [[js|]|] eqn:E; [|done..].
      intros Hd. by eapply val_ok_read; [apply (H1 _ _ _ E)| |]. }
    split; [by apply list.Forall_forall|]. split; [by apply list.Forall_forall|].
    intros j Hj. rewrite list.Forall_forall in H4. by apply (H4 _ Hj).
  Qed.
End histories.
From Verif Require Import RedisFacts.
Section mem_histories.
  Context {M : Type} `{SM : Serde M}.
  Context (prof : profile).
  Context (sched : string → option (time → option time)).
  Context (name : string).
  Context (clock : nat → time).
  Lemma ranges_redis n (es : list (event M)) :
    (∀ k, time_ok (clock k)) → (∀ e f t t', sched e = Some f → f t = Some t' → time_ok t') →
    events_ok n es →
    let s := sys_run prof sched name (redis_h clock) (sys_init rworld_empty) es in
    let m := (n + length es)%nat in
    (∀ t, t ∈ tasks s → job_ok m (t_orig t) ∧ job_ok m (t_job t)) ∧
    (∀ j, j ∈ runs s → job_ok m j) ∧
    (∀ j, RJob (Some j) ∈ responses prof sched name (redis_h clock) (sys_init rworld_empty) es → job_ok m j).
  Proof.
    intros Hc Hs He s m.
    destruct (runs_ok prof sched name Hs (mem_h clock) mem_ok (mem_sane clock Hc) mem_ok_mono n
      (sys_init world_empty) es) as [(H1 & H2 & H3) H4]; [|done|].
    { split; [|by cbn]. intros hash k v. cbn. unfold mem_sget. cbn. by rewrite lookup_empty. }
    destruct (redis_histories prof sched name clock es) as (E1 & E2 & E3 & _).
    rewrite E1 in H4. rewrite E2 in H3. rewrite E3 in H2. fold s m in H2, H3, H4.
    split; [by apply list.Forall_forall|]. split; [by apply list.Forall_forall|].
    intros j Hj. rewrite list.Forall_forall in H4. by apply (H4 _ Hj).
  Qed.
End mem_histories.
