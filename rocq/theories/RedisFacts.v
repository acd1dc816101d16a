(** The work queue on Redis behaves as on InMemory: all its calls are portable. *)
From Verif Require Import Spec JsonFacts BackendFacts WorldFacts.

Lemma portable_bind {A B} lk (p : prog A) (f : A → prog B) :
  portable lk p → (∀ a, portable lk (f a)) → portable lk (bind p f).
Proof.
  induction p as [a| | |X e k IH]; cbn; intros Hp Hf; [done..|]. destruct Hp as [Hc Hk].
  split; [done|]. intros x. by apply IH.
Qed.
Lemma portable_do lk {X : Set} (e : eff X) : portable_call lk e → portable lk (do e).
Proof. by cbn. Qed.

(** The call-list view of simulations. *)
Lemma answers_sim {W1 W2} (h1 : handler W1) (h2 : handler W2) (R : W1 → W2 → Prop) (cs : calls) w1 w2 :
  (∀ X e, existT X e ∈ cs → ∀ w1 w2, R w1 w2 →
      snd (h1 X e w1) = snd (h2 X e w2) ∧ R (fst (h1 X e w1)) (fst (h2 X e w2))) →
  R w1 w2 → answers h1 cs w1 = answers h2 cs w2 ∧ R (run_calls h1 cs w1) (run_calls h2 cs w2).
Proof.
  revert w1 w2; induction cs as [|[X e] cs IH]; intros w1 w2 Hs HR; [done|].
  cbn. destruct (Hs X e (elem_of_list_here _ _) w1 w2 HR) as [Hx Hw]. rewrite Hx.
  destruct (IH (fst (h1 X e w1)) (fst (h2 X e w2))) as [-> H]; [|done|done].
  intros Y e' He'. apply Hs. by apply elem_of_list_further.
Qed.

Section redis.
  Context {M : Type} `{SM : Serde M}.
  Context (prof : profile).
  Context (sched : string → option (time → option time)).
  Context (name : string).
  Context (clock : nat → time).
  Notation qname := (format_queue_name name).

  (** The keys this queue uses for lists. *)
  Definition list_key (q : string) : Prop := ∃ s, q = qname s.
  Lemma list_key_dec q : Decision (list_key q).
  Proof.
    destruct (decide (q = qname Queued)); [left; by eexists|].
    destruct (decide (q = qname Running)); [left; by eexists|].
    destruct (decide (q = qname Finished)); [left; by eexists|].
    destruct (decide (q = qname Failed)); [left; by eexists|].
    destruct (decide (q = qname Canceled)); [left; by eexists|].
    right. intros [[] ?]; done.
  Defined.
  Lemma list_key_name s : list_key (qname s).
  Proof. by eexists. Qed.
  Lemma list_key_storage : ¬ list_key STORAGE_HASH.
  Proof. intros [s H]. symmetry in H. by apply queue_key_not_storage in H. Qed.
  Hint Resolve list_key_name list_key_storage : core.
  Notation port := (portable list_key).

  Lemma port_get id : port (get_from_storage (M := M) id).
  Proof. cbn. auto. Qed.
  Lemma port_upsert k (j : job M) : port (upsert_to_storage k j).
  Proof. cbn. auto. Qed.
  Lemma port_save (j : job M) : port (save_and_notify j).
  Proof. apply portable_bind; [apply port_upsert|]. intros [|]; cbn; auto. Qed.
  Lemma port_push s id : port (do (QPush (qname s) id)).
  Proof. cbn. auto. Qed.
  Lemma port_remove s id : port (do (QRemove (qname s) id)).
  Proof. cbn. auto. Qed.
  Lemma port_now_ms {A} (f : Z → prog A) : (∀ t, port (f t)) → port (bind get_now_as_ms f).
  Proof. intros. apply portable_bind; [cbn; auto|done]. Qed.
  Lemma port_job_enqueue (j : job M) : port (job_enqueue j).
  Proof. apply port_now_ms. intros t. apply port_save. Qed.
  Lemma port_enqueue (j : job M) : port (enqueue name j).
  Proof.
    apply portable_bind; [apply port_push|]. intros [|]; [|cbn; auto].
    apply portable_bind; [apply port_job_enqueue|]. intros [|]; cbn; auto.
  Qed.
  Lemma port_re_enqueue (j : job M) : port (re_enqueue name j).
  Proof.
    apply portable_bind; [apply port_remove|]. intros [|]; [|cbn; auto].
    apply portable_bind; [apply port_job_enqueue|]. intros [|]; [|cbn; auto].
    apply portable_bind; [apply port_push|]. cbn; auto.
  Qed.
  Lemma port_run (j : job M) ec : port (run_with_config name j ec).
  Proof.
    apply portable_bind; [apply port_get|]. intros [[ex|]|]; [|apply port_enqueue|cbn; auto].
    apply portable_bind; [destruct (_ && _); [apply port_upsert|cbn; auto]|].
    intros [|]; [|cbn; auto]. destruct (_ && _); [|cbn; auto].
    apply portable_bind; [apply port_enqueue|]. intros [|]; cbn; auto.
  Qed.
  Lemma port_cancel id : port (cancel_job (M := M) name id).
  Proof.
    apply portable_bind; [apply port_get|]. intros [[j|]|]; [|cbn; auto..].
    destruct (is_queued j); [|cbn; auto].
    apply portable_bind; [apply port_now_ms; intros; apply port_save|]. intros [|]; [|cbn; auto].
    apply portable_bind; [apply port_remove|]. intros [|]; cbn; auto.
  Qed.
  Lemma port_retry id : port (retry_job (M := M) name id).
  Proof.
    apply portable_bind; [apply port_get|]. intros [[j|]|]; [|cbn; auto..].
    destruct (is_done j); [|cbn; auto].
    apply portable_bind; [apply port_re_enqueue|]. intros [|]; cbn; auto.
  Qed.
  Lemma port_batch total ids (ready : list (job M)) : port (pick_batch name total ids ready).
  Proof.
    revert ready; induction ids as [|id ids IH]; intros ready; [done|]. cbn [pick_batch].
    assert (port (let? _ := do (QMove (qname Queued) (qname Queued) 1 Back Front) in pick_batch name total ids ready)) as Hrot.
    { apply portable_bind; [cbn; repeat split; auto|]. intros [|]; [apply IH|done]. }
    apply portable_bind; [apply port_get|]. intros [[j|]|]; [|done|done].
    apply portable_bind; [done|]. intros now.
    destruct (_ && _ && _); [|done].
    apply portable_bind; [apply port_now_ms; intros; apply port_save|]. intros [j'|]; [|done].
    apply portable_bind; [cbn; repeat split; auto|]. intros [|]; [apply IH|done].
  Qed.
  Lemma port_loop fuel total (ready : list (job M)) cursor : port (pick_loop prof name fuel total ready cursor).
  Proof.
    revert ready cursor; induction fuel as [|fuel IH]; intros ready cursor; [done|]. cbn [pick_loop].
    apply portable_bind; [cbn; repeat split; auto; unfold BATCH; lia|]. intros [ids|]; [|done].
    destruct (i32_norm _ _); [|done].
    apply portable_bind; [apply port_batch|]. intros [r|]; [|done].
    destruct (_ <=? _)%nat; [done|]. destruct (_ <=? _); [done|apply IH].
  Qed.
  Lemma port_pick n : port (pick_jobs_to_process (M := M) prof name n).
  Proof.
    apply portable_bind; [cbn; auto|]. intros r. cbv zeta. destruct (_ <=? _)%nat; [done|].
    apply portable_bind; [cbn; auto|]. intros [|]; [apply port_loop|done].
  Qed.
  Lemma port_process c ts : port (process_jobs (M := M) prof name c ts).
  Proof. apply portable_bind; [apply port_pick|]. done. Qed.
  Lemma port_finish (j : job M) : port (mark_job_is_finished name j).
  Proof.
    apply portable_bind; [cbn; auto|]. intros _.
    apply portable_bind; [apply port_now_ms; intros; apply port_save|]. intros [|]; cbn; auto.
  Qed.
  Lemma port_fail (j : job M) : port (mark_job_is_failed name j).
  Proof.
    apply portable_bind; [apply port_now_ms; intros; apply port_save|]. intros [|]; cbn; auto.
  Qed.
  Lemma port_next_tick (j : job M) : port (next_tick prof sched j).
  Proof.
    apply portable_bind; [done|]. intros now. destruct (jtype (ctx j)); [done|done|].
    destruct (sched expression) as [after|]; [|done].
    apply portable_bind; [done|]. intros now2. cbv zeta.
    destruct (after now2) as [u|]; [destruct (i32_norm _ _); [|done]|];
      repeat (match goal with |- context [if ?b then _ else _] => destruct b end); done.
  Qed.
  Lemma port_tail (orig j : job M) u : port (task_tail prof sched name orig j u).
  Proof.
    assert (∀ (j : job M) b, port (execute_finish prof sched name j b)) as Hf.
    { intros j' b. apply portable_bind; [apply port_next_tick|].
      intros [nj|]; [apply port_re_enqueue|]. destruct b; [apply port_fail|apply port_finish]. }
    apply portable_bind.
    - unfold execute_tail. destruct (jretry (ctx j)) as [r|]; [|apply Hf].
      apply portable_bind.
      + unfold call_retry_at. destruct (ur_retry u); [|done]. destruct (_ && _); [|done].
        apply portable_bind; [done|]. intros now. by destruct (retry_retry_at _ _ _) as [[]|].
      + intros [r' [t|]]; [apply port_re_enqueue|apply Hf].
    - intros [|]; [done|]. apply portable_bind; [apply port_fail|done].
  Qed.
  Lemma port_task (t : task M) u : port (task_step prof sched name t u).
  Proof.
    unfold task_step. destruct (t_phase t); [|done| |].
    - destruct (is_cancelled _).
      + apply portable_bind; [cbn; auto|done].
      + apply portable_bind; [done|done].
    - apply portable_bind; done.
    - apply portable_bind; [apply port_tail|done].
  Qed.
  Lemma port_event c ts (e : event M) : port (ev_prog prof sched name c ts e).
  Proof.
    destruct e; cbn [ev_prog]; try done.
    - apply portable_bind; [apply port_run|done].
    - apply portable_bind; [apply port_cancel|done].
    - apply portable_bind; [apply port_get|done].
    - apply portable_bind; [apply port_retry|done].
    - apply portable_bind; [apply port_process|done].
    - destruct (ts !! i); [|done]. apply portable_bind; [apply port_task|]. by intros [o js].
    - apply portable_bind; [apply port_process|done].
  Qed.

  Definition same_sys (s : sys world M) (r : sys rworld M) : Prop :=
    redis_rel list_key (sw s) (sw r) ∧ cfg s = cfg r ∧ tasks s = tasks r ∧ alive s = alive r ∧ runs s = runs r.

  Lemma commit_same s r e :
    same_sys s r →
    (commit prof sched name (mem_h clock) s e).2 = (commit prof sched name (redis_h clock) r e).2 ∧
    same_sys (commit prof sched name (mem_h clock) s e).1 (commit prof sched name (redis_h clock) r e).1.
  Proof.
    intros (Hw & Hc & Ht & Ha & Hr). unfold commit. rewrite <-Hc, <-Ht, <-Hr.
    destruct (redis_run list_key list_key_dec clock (ev_prog prof sched name (cfg s) (tasks s) e) _ _
      (port_event _ _ _) Hw) as [Hx Hw'].
    destruct (run (mem_h clock) _ (sw s)) as [w o], (run (redis_h clock) _ (sw r)) as [w' o'].
    cbn in Hx, Hw'. subst o'. destruct o as [[[[c ts] js] rr]| |]; done.
  Qed.

  Lemma step_same s r e :
    same_sys s r →
    (sys_step prof sched name (mem_h clock) s e).2 = (sys_step prof sched name (redis_h clock) r e).2 ∧
    same_sys (sys_step prof sched name (mem_h clock) s e).1 (sys_step prof sched name (redis_h clock) r e).1.
  Proof.
    intros HR. pose proof HR as (Hw & Hc & Ht & Ha & Hr). unfold sys_step. rewrite <-Ha.
    destruct (alive s) eqn:Eal.
    - destruct e; try (by apply commit_same); cbn.
      + split; [done|]. unfold same_sys; cbn. by rewrite Hr.
      + split; [done|]. unfold same_sys; cbn. by rewrite Hr.
      + split; [done|]. unfold same_sys; cbn. rewrite <-Hr, <-Hc, <-Ht. split; [|done].
        destruct e; try done; apply redis_run_n; try done; try apply list_key_dec; apply port_event.
      + done.
    - destruct e; try done; try (by apply commit_same).
      destruct e; try done. split; [done|]. unfold same_sys; cbn [fst sw cfg tasks alive runs].
      rewrite <-Hr, <-Hc, <-Ht. split; [|done].
      apply redis_run_n; try done; try apply list_key_dec. apply port_event.
  Qed.

  (** The answers of a history. *)
  Lemma responses_same s r es :
    same_sys s r →
    responses prof sched name (mem_h clock) s es = responses prof sched name (redis_h clock) r es ∧
    same_sys (sys_run prof sched name (mem_h clock) s es) (sys_run prof sched name (redis_h clock) r es).
  Proof.
    revert s r; induction es as [|e es IH]; intros s r HR; [done|].
    cbn. destruct (step_same s r e HR) as [-> HR']. destruct (IH _ _ HR') as [-> ?]. done.
  Qed.
End redis.

Lemma mem_move_all clock w f t n fd td :
  let r := mem_h clock _ (QMove f t n fd td) w in
  let from := default [] (queues (st w) !! f) in
  r.2 = Ok (take n (from_end fd from)) ∧
  length (take n (from_end fd from)) = Nat.min n (length from) ∧
  all_items (st r.1) ≡ₚ all_items (st w).
Proof.
  cbn. destruct (mem_move_ql (st w) f t n fd td) as [H1 _].
  pose proof (mem_move_items (st w) f t n fd td) as H2.
  destruct (mem_move (st w) f t n fd td) as [s l]; cbn in *. split; [by rewrite H1|].
  split; [|done]. rewrite take_length. destruct fd; cbn; [done|]. by rewrite rev_length.
Qed.

Lemma redis_get_zero :
  ∃ (p : prog (result (list string))),
    (run (mem_h (λ _, 0)) p world_empty).2 ≠ (run (redis_h (λ _, 0)) p rworld_empty).2.
Proof.
  exists (let! _ := do (QPush "q" "a") in do (QGet "q" 0 Front)). vm_compute. congruence.
Qed.
Lemma redis_self_move :
  ∃ (p : prog (result (list string))),
    (run (mem_h (λ _, 0)) p world_empty).2 ≠ (run (redis_h (λ _, 0)) p rworld_empty).2.
Proof.
  exists (let! _ := do (QPush "q" "a") in do (QMove "q" "q" 2 Front Front)). vm_compute. congruence.
Qed.

Lemma redis_histories {M} `{SM : Serde M} prof sched name clock (es : list (event M)) :
  let s := sys_run prof sched name (mem_h clock) (sys_init world_empty) es in
  let r := sys_run prof sched name (redis_h clock) (sys_init rworld_empty) es in
  responses prof sched name (mem_h clock) (sys_init world_empty) es =
  responses prof sched name (redis_h clock) (sys_init rworld_empty) es ∧
  runs s = runs r ∧ tasks s = tasks r ∧ alive s = alive r ∧
  ∀ st_, Backend.rlist (keys (sw r)) (format_queue_name name st_) = Some (qlist name (sw s) st_).
Proof.
  destruct (responses_same (M := M) prof sched name clock (sys_init world_empty) (sys_init rworld_empty) es)
    as [Hr Hs].
  { split; [|done]. apply redis_rel_empty. }
  split; [done|]. destruct Hs as ((Hq & _) & _ & Ht & Ha & Hrs).
  repeat split; try done. intros s. apply Hq. by eexists.
Qed.
