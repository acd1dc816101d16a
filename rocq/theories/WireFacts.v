(** The work queue on Redis with a connection that may fail at every command behaves as with calls that
    fail as a whole. *)
From Verif Require Import Spec JsonFacts BackendFacts WorldFacts RedisFacts Wire.

(** Moves are of one item. *)
Definition single_call {X : Set} (e : eff X) : Prop :=
  match e with QMove _ _ n _ _ => n = 1%nat | _ => True end.
Fixpoint single {A} (p : prog A) : Prop :=
  match p with Eff e k => single_call e ∧ ∀ x, single (k x) | _ => True end.
Lemma single_bind {A B} (p : prog A) (f : A → prog B) : single p → (∀ a, single (f a)) → single (bind p f).
Proof.
  induction p as [a| | |X e k IH]; cbn; intros Hp Hf; [done..|]. destruct Hp as [Hc Hk].
  split; [done|]. intros x. by apply IH.
Qed.

Definition as_call (link : nat → nat → fault) (n : nat) : fault :=
  match link n O with FOk => link n 1%nat | _ => FBefore end.
Definition wire_rel (lk : string → Prop) (a : fworld) (b : wworld) : Prop :=
  redis_rel lk (fw a) (ww b) ∧ ops a = wcalls b.

(** One call. *)
Lemma wire_sim lk (Hlk : ∀ q, Decision (lk q)) clock link (X : Set) (e : eff X) a b :
  portable_call lk e → single_call e → wire_rel lk a b →
  snd (faulty_h clock (as_call link) X e a) = snd (wire_h clock link X e b) ∧
  wire_rel lk (fst (faulty_h clock (as_call link) X e a)) (fst (wire_h clock link X e b)).
Proof.
  intros Hp Hs [Hr Ho]. destruct a as [w n], b as [r m]. cbn [fw ops ww wcalls] in *. subst m.
  destruct (redis_sim lk Hlk clock X e w r Hp Hr) as [Hx Hw].
  unfold faulty_h. cbn [fw ops]. unfold as_call.
  destruct e; cbn [fail_ans wire_h]; unfold call, one_command; cbn [ww wcalls].
  2:{ cbn in Hs. subst count. cbn [mem_h redis_h r_lmove] in Hx, Hw. cbn [w_lmove mem_h].
      destruct (mem_move (st w) from to 1 fd td) as [sm lm]. cbn [fst snd] in Hx, Hw.
      destruct (link n 0%nat); [|done..]. destruct (link n 1%nat).
      - destruct (r_lmove1 (keys r) from to fd td) as [k' [o|]]; done.
      - done.
      - destruct (r_lmove1 (keys r) from to fd td) as [k' [o|]]; done. }
  all: try (destruct (link n 0%nat); [|done..]; destruct (link n 1%nat)).
  all: try done.
  all: match type of Hx with (mem_h ?c ?X ?e ?w).2 = (redis_h _ _ _ ?r).2 =>
         destruct (mem_h c X e w), (redis_h c X e r); cbn [fst snd] in *; by subst end.
Qed.
Lemma wire_run lk (Hlk : ∀ q, Decision (lk q)) clock link {A} (p : prog A) a b :
  portable lk p → single p → wire_rel lk a b →
  snd (run (faulty_h clock (as_call link)) p a) = snd (run (wire_h clock link) p b) ∧
  wire_rel lk (fst (run (faulty_h clock (as_call link)) p a)) (fst (run (wire_h clock link) p b)).
Proof.
  revert a b; induction p as [x| | |X e k IH]; intros a b Hp Hs HR; cbn [run fst snd]; try done.
  destruct Hp as [Hc Hk], Hs as [Hs Hsk].
  destruct (wire_sim lk Hlk clock link X e a b Hc Hs HR) as [Hx Hw].
  destruct (faulty_h clock _ X e a), (wire_h clock link X e b); cbn [fst snd] in *. subst. by apply IH.
Qed.
Lemma wire_run_n lk (Hlk : ∀ q, Decision (lk q)) clock link {A} n (p : prog A) a b :
  portable lk p → single p → wire_rel lk a b →
  wire_rel lk (run_n (faulty_h clock (as_call link)) n p a) (run_n (wire_h clock link) n p b).
Proof.
  revert p a b; induction n as [|n IH]; intros p a b Hp Hs HR; [by destruct p|].
  destruct p as [| | |X e k]; cbn [run_n]; try done.
  destruct Hp as [Hc Hk], Hs as [Hs Hsk].
  destruct (wire_sim lk Hlk clock link X e a b Hc Hs HR) as [Hx Hw].
  destruct (faulty_h clock _ X e a), (wire_h clock link X e b); cbn [fst snd] in *. subst. by apply IH.
Qed.

Section wire.
  Context {M : Type} `{SM : Serde M}.
  Context (prof : profile).
  Context (sched : string → option (time → option time)).
  Context (name : string).
  Context (clock : nat → time).
  Context (link : nat → nat → fault).
  Notation qname := (format_queue_name name).
  Notation fh := (faulty_h clock (as_call link)).
  Notation wh := (wire_h clock link).
  Notation lk := (list_key name).
  Notation lkd := (list_key_dec name).

  Lemma single_get id : single (get_from_storage (M := M) id).
  Proof. cbn. auto. Qed.
  Lemma single_upsert k (j : job M) : single (upsert_to_storage k j).
  Proof. cbn. auto. Qed.
  Lemma single_save (j : job M) : single (save_and_notify j).
  Proof. apply single_bind; [apply single_upsert|]. intros [|]; cbn; auto. Qed.
  Lemma single_push s id : single (do (QPush (qname s) id)).
  Proof. cbn. auto. Qed.
  Lemma single_remove s id : single (do (QRemove (qname s) id)).
  Proof. cbn. auto. Qed.
  Lemma single_now_ms {A} (f : Z → prog A) : (∀ t, single (f t)) → single (bind get_now_as_ms f).
  Proof. intros. apply single_bind; [cbn; auto|done]. Qed.
  Lemma single_job_enqueue (j : job M) : single (job_enqueue j).
  Proof. apply single_now_ms. intros t. apply single_save. Qed.
  Lemma single_enqueue (j : job M) : single (enqueue name j).
  Proof.
    apply single_bind; [apply single_push|]. intros [|]; [|cbn; auto].
    apply single_bind; [apply single_job_enqueue|]. intros [|]; cbn; auto.
  Qed.
  Lemma single_re_enqueue (j : job M) : single (re_enqueue name j).
  Proof.
    apply single_bind; [apply single_remove|]. intros [|]; [|cbn; auto].
    apply single_bind; [apply single_job_enqueue|]. intros [|]; [|cbn; auto].
    apply single_bind; [apply single_push|]. cbn; auto.
  Qed.
  Lemma single_run (j : job M) ec : single (run_with_config name j ec).
  Proof.
    apply single_bind; [apply single_get|]. intros [[ex|]|]; [|apply single_enqueue|cbn; auto].
    apply single_bind; [destruct (_ && _); [apply single_upsert|cbn; auto]|].
    intros [|]; [|cbn; auto]. destruct (_ && _); [|cbn; auto].
    apply single_bind; [apply single_enqueue|]. intros [|]; cbn; auto.
  Qed.
  Lemma single_cancel id : single (cancel_job (M := M) name id).
  Proof.
    apply single_bind; [apply single_get|]. intros [[j|]|]; [|cbn; auto..].
    destruct (is_queued j); [|cbn; auto].
    apply single_bind; [apply single_now_ms; intros; apply single_save|]. intros [|]; [|cbn; auto].
    apply single_bind; [apply single_remove|]. intros [|]; cbn; auto.
  Qed.
  Lemma single_retry id : single (retry_job (M := M) name id).
  Proof.
    apply single_bind; [apply single_get|]. intros [[j|]|]; [|cbn; auto..].
    destruct (is_done j); [|cbn; auto].
    apply single_bind; [apply single_re_enqueue|]. intros [|]; cbn; auto.
  Qed.
  Lemma single_batch total ids (ready : list (job M)) : single (pick_batch name total ids ready).
  Proof.
    revert ready; induction ids as [|id ids IH]; intros ready; [done|]. cbn [pick_batch].
    assert (single (let? _ := do (QMove (qname Queued) (qname Queued) 1 Back Front) in pick_batch name total ids ready)) as Hrot.
    { apply single_bind; [cbn; auto|]. intros [|]; [apply IH|done]. }
    apply single_bind; [apply single_get|]. intros [[j|]|]; [|done|done].
    apply single_bind; [done|]. intros now.
    destruct (_ && _ && _); [|done].
    apply single_bind; [apply single_now_ms; intros; apply single_save|]. intros [j'|]; [|done].
    apply single_bind; [cbn; auto|]. intros [|]; [apply IH|done].
  Qed.
  Lemma single_loop fuel total (ready : list (job M)) cursor : single (pick_loop prof name fuel total ready cursor).
  Proof.
    revert ready cursor; induction fuel as [|fuel IH]; intros ready cursor; [done|]. cbn [pick_loop].
    apply single_bind; [cbn; auto|]. intros [ids|]; [|done].
    destruct (i32_norm _ _); [|done].
    apply single_bind; [apply single_batch|]. intros [r|]; [|done].
    destruct (_ <=? _)%nat; [done|]. destruct (_ <=? _); [done|apply IH].
  Qed.
  Lemma single_pick n : single (pick_jobs_to_process (M := M) prof name n).
  Proof.
    apply single_bind; [cbn; auto|]. intros r. cbv zeta. destruct (_ <=? _)%nat; [done|].
    apply single_bind; [cbn; auto|]. intros [|]; [apply single_loop|done].
  Qed.
  Lemma single_process c ts : single (process_jobs (M := M) prof name c ts).
  Proof. apply single_bind; [apply single_pick|]. done. Qed.
  Lemma single_finish (j : job M) : single (mark_job_is_finished name j).
  Proof.
    apply single_bind; [cbn; auto|]. intros _.
    apply single_bind; [apply single_now_ms; intros; apply single_save|]. intros [|]; cbn; auto.
  Qed.
  Lemma single_fail (j : job M) : single (mark_job_is_failed name j).
  Proof.
    apply single_bind; [apply single_now_ms; intros; apply single_save|]. intros [|]; cbn; auto.
  Qed.
  Lemma single_next_tick (j : job M) : single (next_tick prof sched j).
  Proof.
    apply single_bind; [done|]. intros now. destruct (jtype (ctx j)); [done|done|].
    destruct (sched expression) as [after|]; [|done].
    apply single_bind; [done|]. intros now2. cbv zeta.
    destruct (after now2) as [u|]; [destruct (i32_norm _ _); [|done]|];
      repeat (match goal with |- context [if ?b then _ else _] => destruct b end); done.
  Qed.
  Lemma single_tail (orig j : job M) u : single (task_tail prof sched name orig j u).
  Proof.
    assert (∀ (j : job M) b, single (execute_finish prof sched name j b)) as Hf.
    { intros j' b. apply single_bind; [apply single_next_tick|].
      intros [nj|]; [apply single_re_enqueue|]. destruct b; [apply single_fail|apply single_finish]. }
    apply single_bind.
    - unfold execute_tail. destruct (jretry (ctx j)) as [r|]; [|apply Hf].
      apply single_bind.
      + unfold call_retry_at. destruct (ur_retry u); [|done]. destruct (_ && _); [|done].
        apply single_bind; [done|]. intros now. by destruct (retry_retry_at _ _ _) as [[]|].
      + intros [r' [t|]]; [apply single_re_enqueue|apply Hf].
    - intros [|]; [done|]. apply single_bind; [apply single_fail|done].
  Qed.
  Lemma single_task (t : task M) u : single (task_step prof sched name t u).
  Proof.
    unfold task_step. destruct (t_phase t); [|done| |].
    - destruct (is_cancelled _).
      + apply single_bind; [cbn; auto|done].
      + apply single_bind; [done|done].
    - apply single_bind; done.
    - apply single_bind; [apply single_tail|done].
  Qed.
  Lemma single_event c ts (e : event M) : single (ev_prog prof sched name c ts e).
  Proof.
    destruct e; cbn [ev_prog]; try done.
    all: try (destruct (ts !! i); [|done]).
    all: apply single_bind; [first [apply single_run|apply single_cancel|apply single_get|apply single_retry|
      apply single_process|apply single_task]|try done; by intros [o js]].
  Qed.

  Definition same_wire (s : sys fworld M) (r : sys wworld M) : Prop :=
    wire_rel lk (sw s) (sw r) ∧ cfg s = cfg r ∧ tasks s = tasks r ∧ alive s = alive r ∧ runs s = runs r.

  Lemma commit_wire s r e :
    same_wire s r →
    (commit prof sched name fh s e).2 = (commit prof sched name wh r e).2 ∧
    same_wire (commit prof sched name fh s e).1 (commit prof sched name wh r e).1.
  Proof.
    intros (Hw & Hc & Ht & Ha & Hr). unfold commit. rewrite <-Hc, <-Ht, <-Hr.
    destruct (wire_run lk lkd clock link (ev_prog prof sched name (cfg s) (tasks s) e) _ _
      (port_event _ _ _ _ _ _) (single_event _ _ _) Hw) as [Hx Hw'].
    destruct (run fh _ (sw s)) as [w o], (run wh _ (sw r)) as [w' o'].
    cbn in Hx, Hw'. subst o'. destruct o as [[[[c ts] js] rr]| |]; done.
  Qed.

  Lemma step_wire s r e :
    same_wire s r →
    (sys_step prof sched name fh s e).2 = (sys_step prof sched name wh r e).2 ∧
    same_wire (sys_step prof sched name fh s e).1 (sys_step prof sched name wh r e).1.
  Proof.
    intros HR. pose proof HR as (Hw & Hc & Ht & Ha & Hr). unfold sys_step. rewrite <-Ha.
    destruct (alive s) eqn:Eal.
    - destruct e; try (by apply commit_wire); cbn.
      + split; [done|]. unfold same_wire; cbn. by rewrite Hr.
      + split; [done|]. unfold same_wire; cbn. by rewrite Hr.
      + split; [done|]. unfold same_wire; cbn. rewrite <-Hr, <-Hc, <-Ht. split; [|done].
        destruct e; try done; apply wire_run_n; try done; try apply lkd; try apply port_event; apply single_event.
      + done.
    - destruct e; try done; try (by apply commit_wire).
      destruct e; try done. split; [done|]. unfold same_wire; cbn [fst sw cfg tasks alive runs].
      rewrite <-Hr, <-Hc, <-Ht. split; [|done].
      apply wire_run_n; try done; try apply lkd; [apply port_event|apply single_event].
  Qed.
  Lemma responses_wire s r es :
    same_wire s r →
    responses prof sched name fh s es = responses prof sched name wh r es ∧
    same_wire (sys_run prof sched name fh s es) (sys_run prof sched name wh r es).
  Proof.
    revert s r; induction es as [|e es IH]; intros s r HR; [done|].
    cbn. destruct (step_wire s r e HR) as [-> HR']. destruct (IH _ _ HR') as [-> ?]. done.
  Qed.
End wire.

Lemma wire_histories {M} `{SM : Serde M} prof sched name clock link (es : list (event M)) :
  let f n := match link n O with FOk => link n 1%nat | _ => FBefore end in
  let s := sys_run prof sched name (faulty_h clock f) (sys_init (FWorld world_empty 0)) es in
  let r := sys_run prof sched name (wire_h clock link) (sys_init (WWorld rworld_empty 0)) es in
  responses prof sched name (faulty_h clock f) (sys_init (FWorld world_empty 0)) es =
  responses prof sched name (wire_h clock link) (sys_init (WWorld rworld_empty 0)) es ∧
  runs s = runs r ∧ tasks s = tasks r ∧ alive s = alive r ∧
  (∀ x, Backend.rlist (keys (ww (sw r))) (format_queue_name name x) = Some (qlist name (fw (sw s)) x)) ∧
  (∀ id, r_hget (keys (ww (sw r))) STORAGE_HASH id = Ok (mem_sget (st (fw (sw s))) STORAGE_HASH id)) ∧
  log (fw (sw s)) = rlog (ww (sw r)).
Proof.
  intros f.
  destruct (responses_wire (M := M) prof sched name clock link (sys_init (FWorld world_empty 0)) (sys_init (WWorld rworld_empty 0)) es)
    as [Hr Hs].
  { split; [|done]. split; [|done]. apply redis_rel_empty. }
  split; [exact Hr|]. destruct Hs as (((Hq & Hh & _ & Hl) & _) & _ & Ht & Ha & Hrs).
  split; [exact Hrs|]. split; [exact Ht|]. split; [exact Ha|]. split; [|split; [|exact Hl]].
  - intros x. apply Hq. by eexists.
  - intros id. specialize (Hh STORAGE_HASH (list_key_storage name)). unfold r_hget. subst f. unfold as_call in Hh.
    destruct (keys _ !! STORAGE_HASH) as [[|m]|]; [done|..]; by rewrite Hh.
Qed.

(** A move of any number of items whose commands may fail: a number of single moves has happened. *)
Lemma w_lmove_moves line i k from to count fd td :
  ∃ m, (m <= count)%nat ∧ (w_lmove line i k from to count fd td).1 = (r_lmove k from to m fd td).1 ∧
    ∀ xs, (w_lmove line i k from to count fd td).2 = Ok xs →
      m = count ∧ (r_lmove k from to count fd td).2 = Ok xs.
Proof.
  revert i k. induction count as [|n IH]; intros i k; cbn [w_lmove].
  - exists O. done.
  - destruct (line i).
    + destruct (r_lmove1 k from to fd td) as [k' [o|e]] eqn:E.
      * destruct (IH (S i) k') as (m & Hm & H1 & H2). exists (S m). split; [lia|].
        cbn [r_lmove]. rewrite E.
        destruct (w_lmove line (S i) k' from to n fd td) as [k'' [xs|e]]; cbn [fst snd] in *.
        -- destruct (H2 xs eq_refl) as [-> H3]. destruct (r_lmove k' from to n fd td) as [k3 [ys|e]]; cbn [fst snd] in *; [|done].
           injection H3 as ->. split; [done|]. intros zs [= <-]. done.
        -- destruct (r_lmove k' from to m fd td) as [k3 [ys|e']]; cbn [fst snd] in *; done.
      * exists 1%nat. split; [lia|]. cbn [r_lmove]. rewrite E. done.
    + exists O. split; [lia|]. done.
    + exists 1%nat. split; [lia|]. cbn [r_lmove]. destruct (r_lmove1 k from to fd td) as [k' [o|e]]; done.
Qed.
Lemma from_end_perm d (l : list string) : from_end d l ≡ₚ l.
Proof. destruct d; cbn; [done|]. rewrite rev_alt, <-rev_alt. symmetry. apply Permutation_rev. Qed.
Lemma insert_item_perm (l : list string) x d : insert_item l x d ≡ₚ x :: l.
Proof. destruct d; cbn; [done|]. symmetry. apply Permutation_cons_append. Qed.
Lemma r_lmove_keeps k from to m fd td lf lt :
  rlist k from = Some lf → rlist k to = Some lt →
  let k' := (r_lmove k from to m fd td).1 in
  ∃ lf' lt', rlist k' from = Some lf' ∧ rlist k' to = Some lt' ∧
    (if String.eqb from to then lf' ≡ₚ lf else lf' ++ lt' ≡ₚ lf ++ lt) ∧
    ∀ q, q ≠ from → q ≠ to → k' !! q = k !! q.
Proof.
  revert k lf lt. induction m as [|m IH]; intros k lf lt Hf Ht k'; subst k'; cbn [r_lmove].
  { exists lf, lt. split; [done|]. split; [done|]. split; [by destruct (String.eqb from to)|done]. }
  pose proof (r_lmove1_spec k from to fd td lf lt Hf Ht) as H1.
  pose proof (from_end_perm fd lf) as Hp.
  destruct (from_end fd lf) as [|x l'] eqn:E.
  - rewrite H1. destruct (IH k lf lt Hf Ht) as (lf' & lt' & Ha & Hb & Hc & Hd).
    destruct (r_lmove k from to m fd td) as [k2 [ys|]]; by exists lf', lt'.
  - destruct H1 as (k1 & -> & Hq & Hn). cbv zeta in Hq.
    assert (from_end fd l' ≡ₚ l') as Hp' by apply from_end_perm.
    destruct (String.eqb_spec from to) as [<-|Hne].
    + pose proof (Hq from) as Hq1. rewrite String.eqb_refl in Hq1. cbn in Hq1.
      destruct (IH k1 _ _ Hq1 Hq1) as (lf' & lt' & Ha & Hb & Hc & Hd).
      destruct (r_lmove k1 from from m fd td) as [k2 [ys|]]; cbn [fst] in *;
        (exists lf', lt'; split; [done|]; split; [done|]; split;
          [by rewrite Hc, insert_item_perm, Hp', Hp|intros q H1 H2; rewrite Hd by done; by apply Hn]).
    + pose proof (Hq from) as Hqf. pose proof (Hq to) as Hqt.
      rewrite (proj2 (String.eqb_neq from to)), String.eqb_refl in Hqf by done.
      rewrite String.eqb_refl, (proj2 (String.eqb_neq to from)), Ht in Hqt by (by intros ->). cbn in Hqf, Hqt.
      destruct (IH k1 _ _ Hqf Hqt) as (lf' & lt' & Ha & Hb & Hc & Hd).
      destruct (r_lmove k1 from to m fd td) as [k2 [ys|]]; cbn [fst] in *;
        (exists lf', lt'; split; [done|]; split; [done|]; split;
          [|intros q H1 H2; rewrite Hd by done; by apply Hn]);
        rewrite Hc, insert_item_perm, Hp', <-Hp, <-Permutation_middle; done.
Qed.
Lemma wire_move clock link w from to n fd td lf lt :
  rlist (keys (ww w)) from = Some lf → rlist (keys (ww w)) to = Some lt →
  let r := wire_h clock link _ (QMove from to n fd td) w in
  let k := keys (ww r.1) in
  (∃ lf' lt', rlist k from = Some lf' ∧ rlist k to = Some lt' ∧
    (if String.eqb from to then lf' ≡ₚ lf else lf' ++ lt' ≡ₚ lf ++ lt)) ∧
  (∀ q, q ≠ from → q ≠ to → k !! q = keys (ww w) !! q) ∧
  (∃ m, (m <= n)%nat ∧ k = keys (redis_h clock _ (QMove from to m fd td) (ww w)).1) ∧
  (∀ xs, r.2 = Ok xs → redis_h clock _ (QMove from to n fd td) (ww w) = (ww r.1, Ok xs)).
Proof.
  intros Hf Ht r k.
  assert (∃ m, (m <= n)%nat ∧ k = (r_lmove (keys (ww w)) from to m fd td).1 ∧
    ∀ xs, r.2 = Ok xs → redis_h clock _ (QMove from to n fd td) (ww w) = (ww r.1, Ok xs)) as (m & Hm & Hk & Hok).
  { subst k r. cbn [wire_h redis_h]. unfold call. destruct (link (wcalls w) 0%nat); [|exists O; split; [lia|done]..].
    destruct (w_lmove_moves (link (wcalls w)) 1 (keys (ww w)) from to n fd td) as (m & Hm & H1 & H2).
    exists m. split; [done|].
    destruct (w_lmove (link (wcalls w)) 1 (keys (ww w)) from to n fd td) as [k1 x1]. cbn [fst snd ww] in *.
    split; [done|]. intros xs ->. destruct (H2 xs eq_refl) as [-> H3].
    destruct (r_lmove (keys (ww w)) from to n fd td) as [k2 x2]. cbn [fst snd] in *. by subst. }
  destruct (r_lmove_keeps (keys (ww w)) from to m fd td lf lt Hf Ht) as (lf' & lt' & Ha & Hb & Hc & Hd).
  rewrite Hk. split; [by exists lf', lt'|]. split; [done|]. split; [|done].
  exists m. split; [done|]. cbn [redis_h]. by destruct (r_lmove _ _ _ _ _ _).
Qed.
