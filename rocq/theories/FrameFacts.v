(** Operations on one job leave the others alone. *)
From Verif Require Import SpecFrame JsonFacts BackendFacts WorldFacts MultiFacts CrashFacts.

Section touch.
  Context (ids rd : list string).
  (** Calls that concern only [ids], and look only at the records of [rd]. *)
  Definition touch {X : Set} (e : eff X) : Prop :=
    match e with
    | QPush _ x | QRemove _ x => x ∈ ids
    | SUpsert _ k _ => k ∈ ids
    | SGet _ k => k ∈ rd
    | QMove _ _ _ _ _ | QGet _ _ _ | QCount _ => False
    | Now | Send _ => True
    end.
  (** Programs of such calls. *)
  Fixpoint touches {A} (p : prog A) : Prop :=
    match p with
    | Eff e k => touch e ∧ ∀ x, touches (k x)
    | _ => True
    end.
  Lemma touches_bind {A B} (p : prog A) (f : A → prog B) :
    touches p → (∀ a, touches (f a)) → touches (bind p f).
  Proof.
    induction p as [a| | |X e k IH]; cbn; intros Hp Hf; [auto|done|done|].
    destruct Hp as [Hc Hk]. split; [done|]. intros x. by apply IH.
  Qed.
  (** With what is known of the result. *)
  Fixpoint touches' {A} (p : prog A) (Q : A → Prop) : Prop :=
    match p with
    | Ret a => Q a
    | Panic | Diverge => True
    | Eff e k => touch e ∧ ∀ x, touches' (k x) Q
    end.
  Lemma touches_bind' {A B} (p : prog A) (f : A → prog B) Q :
    touches' p Q → (∀ a, Q a → touches (f a)) → touches (bind p f).
  Proof.
    induction p as [a| | |X e k IH]; cbn; intros Hp Hf; [auto|done|done|].
    destruct Hp as [Hc Hk]. split; [done|]. intros x. by apply IH.
  Qed.

  Lemma filter_put (x : string) (l : list string) : x ∈ ids → filter (λ x, x ∉ ids) (x :: l) = filter (λ x, x ∉ ids) l.
  Proof. intros H. by rewrite filter_cons_False by (intros ?; done). Qed.
  Lemma filter_rem (x : string) (l : list string) :
    x ∈ ids → filter (λ x, x ∉ ids) (filter (λ y, y ≠ x) l) = filter (λ x, x ∉ ids) l.
  Proof.
    intros Hx. induction l as [|y l IH]; [done|]. rewrite !filter_cons.
    destruct (decide (y ≠ x)); rewrite ?filter_cons; destruct (decide (y ∉ ids)); rewrite ?IH; try done.
    exfalso. apply dec_stable in n. by subst.
  Qed.
  Lemma others_refl w : others_same ids w w.
  Proof. done. Qed.
  Lemma others_trans w1 w2 w3 : others_same ids w1 w2 → others_same ids w2 w3 → others_same ids w1 w3.
  Proof.
    intros [H1 H2] [H3 H4]. split; [intros; by rewrite H3, H1|]. intros q. by rewrite H4, H2.
  Qed.
  Lemma mem_touch clock (X : Set) (e : eff X) w : touch e → others_same ids w (mem_h clock X e w).1.
  Proof.
    intros He. destruct e as [q it|f t m fd td|q it|q m d|q|hash key v|hash key| |m]; cbn in *; try done.
    - split; [intros; unfold mem_sget; cbn [st set_st]; by rewrite mem_push_storages|].
      intros q'. cbn [st set_st]. pose proof (mem_push_ql (st w) q it q') as E. unfold ql in E. rewrite E.
      unfold upd. destruct (String.eqb_spec q' q) as [->|]; [|done]. by apply filter_put.
    - split; [intros; unfold mem_sget; cbn [st set_st]; by rewrite mem_remove_storages|].
      intros q'. cbn [st set_st]. pose proof (mem_remove_ql (st w) q it q') as E. unfold ql in E. rewrite E.
      unfold upd. destruct (String.eqb_spec q' q) as [->|]; [|done]. by apply filter_rem.
    - split.
      + intros hash' id Hid. cbn [st set_st]. rewrite mem_upsert_sget.
        destruct (String.eqb_spec id key) as [->|]; [done|]. by rewrite andb_false_r.
      + intros q. cbn [st set_st]. by rewrite mem_upsert_queues.
  Qed.
  Lemma faulty_touch clock faults (X : Set) (e : eff X) w :
    touch e → others_same ids (fw w) (fw (faulty_h clock faults X e w).1).
  Proof.
    intros He. pose proof (mem_touch clock X e (fw w) He) as H. unfold faulty_h.
    destruct (fail_ans e) as [bad|].
    - destruct (faults (ops w)); destruct (mem_h clock X e (fw w)) as [w' x]; cbn in *; try done.
    - destruct (mem_h clock X e (fw w)) as [w' x]; done.
  Qed.

  Section run.
    Context (clock : nat → time) (faults : nat → fault).
    Notation h := (faulty_h clock faults).
    Lemma touches_run {A} (p : prog A) w : touches p → others_same ids (fw w) (fw (run h p w).1).
    Proof.
      revert w. induction p as [a| | |X e k IH]; intros w Hp; [apply others_refl..|]. cbn [run].
      destruct Hp as [He Hk]. pose proof (faulty_touch clock faults X e w He) as H1.
      destruct (h X e w) as [w' x]. eapply others_trans; [exact H1|]. by apply IH.
    Qed.
    Lemma touches_run_n {A} n (p : prog A) w : touches p → others_same ids (fw w) (fw (run_n h n p w)).
    Proof.
      revert p w. induction n as [|n IH]; intros p w Hp; [destruct p; apply others_refl|].
      destruct p as [a| | |X e k]; [apply others_refl..|]. cbn [run_n].
      destruct Hp as [He Hk]. pose proof (faulty_touch clock faults X e w He) as H1.
      destruct (h X e w) as [w' x]. eapply others_trans; [exact H1|]. by apply IH.
    Qed.
    (** A program that reads first. *)
    Lemma read_cases key w :
      (h _ (SGet STORAGE_HASH key) w).2 = Ok (mem_sget (st (fw w)) STORAGE_HASH key) ∨
      ∃ e, (h _ (SGet STORAGE_HASH key) w).2 = Err e.
    Proof. unfold faulty_h. cbn. destruct (faults (ops w)); cbn; eauto. Qed.
    Lemma read_run {A} key (k : result (option value) → prog A) w :
      key ∈ rd → (∀ e, touches (k (Err e))) → touches (k (Ok (mem_sget (st (fw w)) STORAGE_HASH key))) →
      others_same ids (fw w) (fw (run h (Eff (SGet STORAGE_HASH key) k) w).1) ∧
      ∀ n, others_same ids (fw w) (fw (run_n h n (Eff (SGet STORAGE_HASH key) k) w)).
    Proof.
      intros Hr He Ho. cbn [run]. pose proof (faulty_touch clock faults _ (SGet STORAGE_HASH key) w Hr) as H1.
      pose proof (read_cases key w) as Hc.
      assert (touches (k (h _ (SGet STORAGE_HASH key) w).2)) as Ht.
      { destruct Hc as [->|[e ->]]; [done|apply He]. }
      split.
      - destruct (h _ _ w) as [w' x]. eapply others_trans; [exact H1|]. by apply touches_run.
      - intros [|n]; [apply others_refl|]. cbn [run_n]. destruct (h _ _ w) as [w' x].
        eapply others_trans; [exact H1|]. by apply touches_run_n.
    Qed.
  End run.

  Section programs.
    Context {M : Type} `{SM : Serde M}.
    Context (prof : profile).
    Context (sched : string → option (time → option time)).
    Context (name : string).
    Definition mine (r : result (job M)) : Prop := match r with Ok j => jid j ∈ ids | Err _ => True end.
    Lemma touch_save (j : job M) : jid j ∈ ids → touches' (save_and_notify j) mine.
    Proof. intros Hj. cbn. split; [done|]. intros [|]; cbn; auto. Qed.
    Lemma touch_status (j : job M) (f : job M → Z → job M) :
      jid j ∈ ids → (∀ t, jid (f j t) = jid j) →
      touches' (bind get_now_as_ms (λ t, save_and_notify (f j t))) mine.
    Proof.
      intros Hj Hf. cbn. split; [done|]. intros t. split; [by rewrite Hf|].
      intros [|]; cbn; [|done]. split; [done|]. intros _. by rewrite Hf.
    Qed.
    Lemma touch_enqueue (j : job M) : jid j ∈ ids → touches (enqueue name j).
    Proof.
      intros Hj. apply touches_bind; [by cbn|]. intros [|]; [|done].
      eapply touches_bind'; [by apply (touch_status j (λ j t, enq j t))|]. by intros [|].
    Qed.
    Lemma touch_re_enqueue (j : job M) : jid j ∈ ids → touches (re_enqueue name j).
    Proof.
      intros Hj. apply touches_bind; [by cbn|]. intros [|]; [|done].
      eapply touches_bind'; [by apply (touch_status j (λ j t, enq j t))|]. intros [j'|] Hm; [|done].
      by cbn.
    Qed.
    Lemma touch_submit (j : job M) ec : jid j ∈ ids → jid j ∈ rd → touches (run_with_config name j ec).
    Proof.
      intros Hj Hr. apply touches_bind; [by cbn|]. intros [[ex|]|]; [|by apply touch_enqueue|done].
      apply touches_bind; [destruct (_ && _); by cbn|]. intros [|]; [|done].
      destruct (_ && _); [|done]. apply touches_bind; [by apply touch_enqueue|]. by intros [|].
    Qed.
    Lemma touch_finished (j : job M) : jid j ∈ ids → touches (mark_job_is_finished name j).
    Proof.
      intros Hj. apply touches_bind; [by cbn|]. intros _.
      eapply touches_bind'; [by apply (touch_status j (λ j t, WorldFacts.fin j t))|]. intros [j'|] Hm; [|done].
      by cbn.
    Qed.
    Lemma touch_failed (j : job M) : jid j ∈ ids → touches (mark_job_is_failed name j).
    Proof.
      intros Hj. eapply touches_bind'; [by apply (touch_status j (λ j t, fai j t))|]. intros [j'|] Hm; [|done].
      by cbn.
    Qed.
    Lemma touch_next_tick (j : job M) : jid j ∈ ids →
      touches' (next_tick prof sched j) (λ o, match o with Some j' => jid j' ∈ ids | None => True end).
    Proof.
      intros Hj. cbn. split; [done|]. intros now. destruct (jtype (ctx j)) as [| |e s r cc]; [done..|].
      destruct (sched e) as [f|]; [|done]. cbn. split; [done|]. intros now2.
      assert (∀ j' : job M, jid j' ∈ ids → touches'
         (if match max_repeat cc with Some m => m <? r | None => false end then Ret None
          else if match end_at cc with Some t => t <? now | None => false end then Ret None
          else Ret (Some j')) (λ o, match o with Some j' => jid j' ∈ ids | None => True end)) as Hc.
      { intros j' Hj'. destruct (match max_repeat cc with Some _ => _ | None => _ end); [done|].
        by destruct (match end_at cc with Some _ => _ | None => _ end). }
      destruct (f now2) as [up|]; [|by apply Hc]. destruct (i32_norm prof (r + 1)) as [k|]; [|done]. by apply Hc.
    Qed.
    Lemma touch_finish (j : job M) b : jid j ∈ ids → touches (execute_finish prof sched name j b).
    Proof.
      intros Hj. eapply touches_bind'; [by apply touch_next_tick|].
      intros [nj|] Hn; [by apply touch_re_enqueue|]. destruct b; [by apply touch_failed|by apply touch_finished].
    Qed.
    Lemma touch_tail (j : job M) u : jid j ∈ ids → touches (execute_tail prof sched name j u).
    Proof.
      intros Hj. unfold execute_tail. destruct (jretry (ctx j)) as [r|]; [|by apply touch_finish].
      apply touches_bind.
      { destruct (ur_retry u) as [f|]; [|done]. cbn. destruct (_ && _); [|done]. cbn. split; [done|].
        intros t. by destruct (retry_retry_at _ _ _) as [[]|]. }
      intros [r' [t|]]; [by apply touch_re_enqueue|by apply touch_finish].
    Qed.
    Lemma touch_task (t : task M) u : jid (t_orig t) ∈ ids → jid (t_job t) ∈ ids →
      touches (task_step prof sched name t u).
    Proof.
      intros H1 H2. unfold task_step. destruct (t_phase t).
      - destruct (is_cancelled _); by cbn.
      - done.
      - by cbn.
      - apply touches_bind; [|done]. apply touches_bind; [by apply touch_tail|]. intros [|]; [done|].
        apply touches_bind; [by apply touch_failed|done].
    Qed.
  End programs.
End touch.

Section frame.
  Context {M : Type} `{SM : Serde M}.
  Context (prof : profile).
  Context (sched : string → option (time → option time)).
  Context (name : string).
  Context (clock : nat → time) (faults : nat → fault).
  Notation h := (faulty_h clock faults).

  (** The program of an event: it makes only such calls, or it reads one record first. *)
  Lemma event_touches c ts (e : event M) w :
    about_all e = false →
    let ids := about w ts e in
    let rd := concerns w ts e in
    let p := ev_prog prof sched name c ts e in
    touches ids rd p ∨
    ∃ key k, p = Eff (SGet STORAGE_HASH key) k ∧ key ∈ rd ∧
      (∀ x, touches ids rd (k (Err x))) ∧ touches ids rd (k (Ok (mem_sget (st w) STORAGE_HASH key))).
  Proof.
    intros He. cbv zeta. destruct e as [j ec|id|id|id|c'| |i u| | |e m|]; try done; cbn [about concerns].
    - left. apply touches_bind; [|done]. apply touch_submit; by left.
    - right. eexists id, _. split; [reflexivity|]. split; [left|]. split; [done|]. cbn.
      unfold stored. destruct (mem_sget _ _ id) as [[js|]|]; cbn; [|done..].
      destruct (dec_job js) as [j|]; cbn; [|done]. destruct (is_queued j); [|done].
      cbn. split; [done|]. intros t. split; [right; left|]. intros [|]; cbn; [|done].
      split; [done|]. intros _. cbn. split; [left|]. by intros [|].
    - left. apply touches_bind; [|done]. cbn. split; [left|]. by intros [[[js|]|]|].
    - right. eexists id, _. split; [reflexivity|]. split; [left|]. split; [done|]. cbn.
      unfold stored. destruct (mem_sget _ _ id) as [[js|]|]; cbn; [|done..].
      destruct (dec_job js) as [j|]; cbn; [|done]. destruct (is_done j); [|done].
      cbn. assert (jid j ∈ [id; jid j]) as Hj by (right; left). split; [exact Hj|].
      intros [|]; cbn; [|done]. split; [done|]. intros t. split; [exact Hj|].
      intros [|]; cbn; [|done]. split; [done|]. intros _. cbn. split; [exact Hj|]. by intros [|].
    - by left.
    - left. cbn [ev_prog]. destruct (ts !! i) as [t|]; [|done].
      apply touches_bind; [|by intros [o js]]. apply touch_task; [left|right; left].
    - by left.
    - by left.
    - by left.
  Qed.
  Lemma event_frame c ts (e : event M) w :
    about_all e = false →
    others_same (about (fw w) ts e) (fw w) (fw (run h (ev_prog prof sched name c ts e) w).1) ∧
    ∀ n, others_same (about (fw w) ts e) (fw w) (fw (run_n h n (ev_prog prof sched name c ts e) w)).
  Proof.
    intros He. destruct (event_touches c ts e (fw w) He) as [Ht|(key&k&->&Hr&H1&H2)].
    - split; [by eapply touches_run|]. intros n. by eapply touches_run_n.
    - by eapply read_run.
  Qed.
  Lemma step_frame (s : sys fworld M) e :
    about_all e = false →
    others_same (about (fw (sw s)) (tasks s) e) (fw (sw s)) (fw (sw (sys_step prof sched name h s e).1)).
  Proof.
    intros He. unfold sys_step.
    assert (∀ e', about_all e' = false →
      others_same (about (fw (sw s)) (tasks s) e') (fw (sw s)) (fw (sw (commit prof sched name h s e').1))) as Hc.
    { intros e' He'. destruct (event_frame (cfg s) (tasks s) e' (sw s) He') as [H _]. unfold commit.
      destruct (run h _ (sw s)) as [w [[[[c ts] js] r]| |]]; exact H. }
    destruct (alive s).
    - destruct e as [j ec|id|id|id|c'| |i u| | |e m|]; try done; try (by apply Hc).
      cbn [fst sw]. cbn in He. destruct (event_frame (cfg s) (tasks s) e (sw s) He) as [_ H].
      destruct e; try done; apply H.
    - destruct e as [j ec|id|id|id|c'| |i u| | |e m|]; try done. by destruct e.
  Qed.
  (** Tasks: only the polled one changes, unless the actor dies. *)
  Lemma step_tasks (s : sys fworld M) e :
    about_all e = false → alive (sys_step prof sched name h s e).1 = true →
    tasks (sys_step prof sched name h s e).1 = tasks s ∨
    ∃ i u, e = EvTask i u ∧
      (tasks (sys_step prof sched name h s e).1 = delete i (tasks s) ∨
       ∃ t t', tasks s !! i = Some t ∧ t_orig t' = t_orig t ∧ jid (t_job t') = jid (t_job t) ∧
         tasks (sys_step prof sched name h s e).1 = <[i:=t']> (tasks s)).
  Proof.
    intros He. unfold sys_step.
    destruct (alive s) eqn:Ea.
    2:{ destruct e as [j ec|id|id|id|c'| |i u| | |e m|]; try done; try (by left).
        destruct e; try done; by left. }
    destruct e as [j ec|id|id|id|c'| |i u| | |e m|]; try done; unfold commit; cbn [ev_prog].
    1,2,3,4: rewrite run_bind'; match goal with |- context [run h ?p (sw ?y)] =>
      destruct (run h p (sw y)) as [? [?| |]] end; cbn; try done; by left.
    1: by left.
    destruct (tasks s !! i) as [t|] eqn:Ei; [|by left]. rewrite run_bind'.
    assert (match (run h (task_step prof sched name t u) (sw s)).2 with
      | Done (Some t', _) => t_orig t' = t_orig t ∧ jid (t_job t') = jid (t_job t) | _ => True end) as Ht.
    { unfold task_step. destruct (t_phase t).
      - destruct (is_cancelled _); rewrite run_bind';
        match goal with |- context [run h ?p (sw ?y)] => by destruct (run h p (sw y)) as [? [?| |]] end.
      - by cbn.
      - rewrite run_bind'.
        match goal with |- context [run h ?p (sw ?y)] => by destruct (run h p (sw y)) as [? [?| |]] end.
      - rewrite run_bind'. by destruct (run h _ _) as [? [?| |]]. }
    destruct (run h (task_step prof sched name t u) (sw s)) as [w [[[t'|] js]| |]]; cbn; try done.
    - intros _. right. exists i, u. split; [done|]. right. exists t, t'. destruct Ht. auto.
    - intros _. right. exists i, u. split; [done|]. by left.
  Qed.
End frame.

Section quiet.
  Context {M : Type} `{SM : Serde M} {SO : SerdeOk M}.
  Context (prof : profile).
  Context (sched : string → option (time → option time)).
  Context (name : string).
  Context (clock : nat → time) (faults : nat → fault).
  Notation fgo := (sys_run prof sched name (faulty_h clock faults) (sys_init (M := M) (FWorld world_empty 0))).

  Lemma about_history es e ts (id : string) :
    id ∈ about (fw (sw (fgo es))) ts e →
    id ∈ named e ∨ ∃ t, t ∈ ts ∧ (jid (t_orig t) = id ∨ jid (t_job t) = id).
  Proof.
    induction e as [j ec|id'|id'|id'|c'| |i u| | |e m IH|]; cbn; intros Hi; auto.
    - left. destruct (stored _ id') as [j|] eqn:Ej; [|done].
      pose proof (keyed_faulty prof sched name clock faults es id' j Ej) as Hk. rewrite Hk in Hi.
      apply elem_of_cons in Hi as [->|Hi]; [left|done].
    - left. destruct (stored _ id') as [j|] eqn:Ej; [|done].
      pose proof (keyed_faulty prof sched name clock faults es id' j Ej) as Hk. rewrite Hk in Hi.
      apply elem_of_cons in Hi as [->|Hi]; [left|done].
    - destruct (ts !! i) as [t|] eqn:Et; [|by apply elem_of_nil in Hi]. right. exists t.
      split; [by eapply elem_of_list_lookup_2|].
      apply elem_of_cons in Hi as [->|Hi]; [by left|]. apply elem_of_list_singleton in Hi. auto.
  Qed.
  Lemma filter_one (P : string → Prop) `{∀ x, Decision (P x)} id l : P id →
    length (filter (λ x, x = id) (filter P l)) = length (filter (λ x, x = id) l).
  Proof.
    intros Hp. f_equal. rewrite list_filter_filter. apply list_filter_iff. intros x. split; [by intros []|]. by intros ->.
  Qed.
  Lemma quiet es es' id :
    Forall (λ e, about_all e = false ∧ id ∉ named e) es' →
    (∀ t, t ∈ tasks (fgo es) → jid (t_orig t) ≠ id ∧ jid (t_job t) ≠ id) →
    (∀ t, t ∈ tasks (fgo (es ++ es')) → jid (t_orig t) ≠ id ∧ jid (t_job t) ≠ id) ∧
    mem_sget (st (fw (sw (fgo (es ++ es'))))) STORAGE_HASH id = mem_sget (st (fw (sw (fgo es)))) STORAGE_HASH id ∧
    ∀ q, length (filter (λ x, x = id) (default [] (queues (st (fw (sw (fgo (es ++ es'))))) !! q))) =
         length (filter (λ x, x = id) (default [] (queues (st (fw (sw (fgo es)))) !! q))).
  Proof.
    induction es' as [|e es' IH] using rev_ind; intros Hf Ht; [by rewrite app_nil_r|].
    apply Forall_app in Hf as [Hf He]. apply Forall_cons_1 in He as [[Ha Hn] _].
    destruct (IH Hf Ht) as (H1&H2&H3). rewrite app_assoc.
    assert (fgo ((es ++ es') ++ [e]) = (sys_step prof sched name (faulty_h clock faults) (fgo (es ++ es')) e).1) as ->.
    { unfold sys_run at 1. by rewrite fold_left_app. }
    set (s := fgo (es ++ es')) in *.
    assert (id ∉ about (fw (sw s)) (tasks s) e) as Hi.
    { intros Hi. apply about_history in Hi as [Hi|(t&Hm&Hi)]; [done|]. destruct (H1 t Hm), Hi; done. }
    destruct (step_frame prof sched name clock faults s e Ha) as [Hs Hq]. split; [|split].
    - destruct (alive (sys_step prof sched name (faulty_h clock faults) s e).1) eqn:Ea.
      + destruct (step_tasks prof sched name clock faults s e Ha Ea) as [->|(i&u&->&[->|(t&t'&Hl&Ho&Hj&->)])]; [done|..].
        * intros t Hm. apply H1. apply elem_of_list_lookup in Hm as [k Hk].
          destruct (decide (k < i)%nat); [rewrite lookup_delete_lt in Hk by done|rewrite lookup_delete_ge in Hk by lia];
            by eapply elem_of_list_lookup_2.
        * intros x Hx. apply elem_of_list_lookup in Hx as [k Hk].
          apply list_lookup_insert_Some in Hk as [(<-&<-&_)|[_ Hk]].
          -- rewrite Ho, Hj. apply H1. by eapply elem_of_list_lookup_2.
          -- apply H1. by eapply elem_of_list_lookup_2.
      + assert (tasks (sys_step prof sched name (faulty_h clock faults) s e).1 = [] ∨
          tasks (sys_step prof sched name (faulty_h clock faults) s e).1 = tasks s) as [->| ->]; [|by intros t Hm%elem_of_nil|done].
        { revert Ea. unfold sys_step, commit. destruct (alive s) eqn:E.
          - destruct e; try done; try (by left); destruct (run _ _ _) as [? [[[[? ?] ?] ?]| |]]; try done; by left.
          - destruct e; try done; try (by right); destruct e; try done; by right. }
    - rewrite Hs by done. exact H2.
    - intros q. rewrite <- (H3 q). specialize (Hq q).
      rewrite <- (filter_one (λ x, x ∉ about (fw (sw s)) (tasks s) e)) by done.
      rewrite Hq. by apply filter_one.
  Qed.
End quiet.
