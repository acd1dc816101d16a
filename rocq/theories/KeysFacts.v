(** A queue on Redis touches and sees its own keys only, and is there what it is on the in-memory store. *)
From Verif Require Import Spec SpecMulti SpecKeys BackendFacts RedisFacts WorldFacts MultiFacts RaceLoop RaceSim AnyFacts BackFacts.
Import Spec.
Open Scope Z_scope.

(** *** Simulations between any two handlers *)
Section gsim.
  Context {W1 W2 : Type} (h1 : handler W1) (h2 : handler W2) (R : W1 → W2 → Prop) (C : ∀ X : Set, eff X → Prop).
  Context (Hsim : ∀ X e w1 w2, C X e → R w1 w2 → (h1 X e w1).2 = (h2 X e w2).2 ∧ R (h1 X e w1).1 (h2 X e w2).1).
  Notation calls p := (RaceLoop.all_calls C True p (λ _, True)).
  Lemma run_gsim {A} (p : prog A) w1 w2 :
    calls p → R w1 w2 → (run h1 p w1).2 = (run h2 p w2).2 ∧ R (run h1 p w1).1 (run h2 p w2).1.
  Proof using Hsim.
    revert w1 w2. induction p as [a| | |X e k IH]; intros w1 w2 Hp HR; try done. destruct Hp as [He Hk].
    destruct (Hsim X e w1 w2 He HR) as [Ex Ew]. cbn [run].
    destruct (h1 X e w1) as [v1 x1], (h2 X e w2) as [v2 x2]. cbn in Ex, Ew. subst x2. by apply IH.
  Qed.
  Lemma run_n_gsim {A} n (p : prog A) w1 w2 : calls p → R w1 w2 → R (run_n h1 n p w1) (run_n h2 n p w2).
  Proof using Hsim.
    revert p w1 w2. induction n as [|n IH]; intros p w1 w2 Hp HR; [done|]. destruct p as [a| | |X e k]; try done.
    destruct Hp as [He Hk]. destruct (Hsim X e w1 w2 He HR) as [Ex Ew]. cbn [run_n].
    destruct (h1 X e w1) as [v1 x1], (h2 X e w2) as [v2 x2]. cbn in Ex, Ew. subst x2. by apply IH.
  Qed.
  Context {M : Type} `{SM : Serde M}.
  Context (prof : profile).
  Context (sched : string → option (time → option time)).
  Context (name : string).
  Context (Hev : ∀ c ts (e : event M), calls (ev_prog prof sched name c ts e)).
  Definition gsame (s : sys W1 M) (r : sys W2 M) : Prop := R (sw s) (sw r) ∧ same_process s r.
  Lemma commit_gsim s r e : gsame s r →
    (commit prof sched name h1 s e).2 = (commit prof sched name h2 r e).2 ∧
    gsame (commit prof sched name h1 s e).1 (commit prof sched name h2 r e).1.
  Proof using Hsim Hev.
    intros (Hw & Hc & Ht & Ha & Hr). unfold commit. rewrite <-Hc, <-Ht, <-Hr.
    destruct (run_gsim (ev_prog prof sched name (cfg s) (tasks s) e) _ _ (Hev _ _ _) Hw) as [Hx Hw'].
    destruct (run h1 _ (sw s)) as [w o], (run h2 _ (sw r)) as [w' o'].
    cbn in Hx, Hw'. subst o'. destruct o as [[[[c ts] js] rr]| |]; done.
  Qed.
  Lemma step_gsim s r e : gsame s r →
    (sys_step prof sched name h1 s e).2 = (sys_step prof sched name h2 r e).2 ∧
    gsame (sys_step prof sched name h1 s e).1 (sys_step prof sched name h2 r e).1.
  Proof using Hsim Hev.
    intros HR. pose proof HR as (Hw & Hc & Ht & Ha & Hr). unfold sys_step. rewrite <-Ha.
    destruct (alive s) eqn:Eal.
    - destruct e; try (by apply commit_gsim); cbn.
      + split; [done|]. unfold gsame, same_process; cbn. by rewrite Hr.
      + split; [done|]. unfold gsame, same_process; cbn. by rewrite Hr.
      + split; [done|]. unfold gsame, same_process; cbn. rewrite <-Hr, <-Hc, <-Ht. split; [|done].
        destruct e; try done; by apply run_n_gsim.
      + done.
    - destruct e; try done; try (by apply commit_gsim).
      destruct e; try done. split; [done|]. unfold gsame, same_process; cbn [fst sw cfg tasks alive runs].
      rewrite <-Hr, <-Hc, <-Ht. split; [|done]. by apply run_n_gsim.
  Qed.
  Lemma sys_gsim s r es : gsame s r →
    responses prof sched name h1 s es = responses prof sched name h2 r es ∧
    gsame (sys_run prof sched name h1 s es) (sys_run prof sched name h2 r es).
  Proof using Hsim Hev.
    revert s r; induction es as [|e es IH]; intros s r HR; [done|].
    cbn. destruct (step_gsim s r e HR) as [-> HR']. destruct (IH _ _ HR') as [-> ?]. done.
  Qed.
End gsim.

(** *** Keys *)
Section keys.
  Context {M : Type} `{SM : Serde M}.
  Context (name : string).
  Notation own := (own_key name).
  (** The calls of a queue. *)
  Definition mine (X : Set) (e : eff X) : Prop :=
    within (M := M) (lists_of name) (λ _, True) e ∧ portable_call (list_key name) e.
  Lemma own_list q : lists_of name q → own q.
  Proof. intros [s ->]. right. by exists s. Qed.
  Lemma own_hash : own STORAGE_HASH.
  Proof. by left. Qed.
  Definition agree (k k' : keyspace) : Prop := ∀ q, own q → k !! q = k' !! q.
  Lemma rlist_agree k k' q : own q → agree k k' → rlist k q = rlist k' q.
  Proof. intros Hq H. unfold rlist. by rewrite (H q Hq). Qed.
  Lemma rset_agree k k' q l : agree k k' → agree (rset k q l) (rset k' q l).
  Proof.
    intros H p Hp. destruct (decide (p = q)) as [->|Hne]; [|by rewrite !rset_lookup_ne, H].
    unfold rset. destruct l; [by rewrite !lookup_delete|by rewrite !lookup_insert].
  Qed.
  Lemma rset_frame k q l p : own q → ¬ own p → rset k q l !! p = k !! p.
  Proof. intros Hq Hp. apply rset_lookup_ne. by intros ->. Qed.
  Lemma move1_agree k k' f t fd td : own f → own t → agree k k' →
    (r_lmove1 k f t fd td).2 = (r_lmove1 k' f t fd td).2 ∧ agree (r_lmove1 k f t fd td).1 (r_lmove1 k' f t fd td).1.
  Proof.
    intros Hf Ht H. unfold r_lmove1. rewrite <-(rlist_agree k k' f), <-(rlist_agree k k' t) by done.
    destruct (rlist k f) as [l|]; [|done]. destruct (pop fd l) as [[x l']|]; [|done]. destruct (rlist k t); [|done].
    assert (agree (rset k f l') (rset k' f l')) as H1 by by apply rset_agree.
    rewrite <-(rlist_agree _ _ t Ht H1). destruct (rlist (rset k f l') t); [|done]. split; [done|]. by apply rset_agree.
  Qed.
  Lemma move1_frame k f t fd td p : own f → own t → ¬ own p → (r_lmove1 k f t fd td).1 !! p = k !! p.
  Proof.
    intros Hf Ht Hp. unfold r_lmove1. destruct (rlist k f) as [l|]; [|done]. destruct (pop fd l) as [[x l']|]; [|done].
    destruct (rlist k t); [|done]. destruct (rlist (rset k f l') t); [|done]. cbn. by rewrite !rset_frame.
  Qed.
  Lemma move_agree n k k' f t fd td : own f → own t → agree k k' →
    (r_lmove k f t n fd td).2 = (r_lmove k' f t n fd td).2 ∧ agree (r_lmove k f t n fd td).1 (r_lmove k' f t n fd td).1.
  Proof.
    intros Hf Ht. revert k k'. induction n as [|n IH]; intros k k' H; [done|]. cbn [r_lmove].
    destruct (move1_agree k k' f t fd td Hf Ht H) as [E1 E2].
    destruct (r_lmove1 k f t fd td) as [k1 o1], (r_lmove1 k' f t fd td) as [k2 o2]. cbn in E1, E2. subst o2.
    destruct o1 as [o|e]; [|done]. destruct (IH k1 k2 E2) as [E3 E4].
    destruct (r_lmove k1 f t n fd td) as [k3 o3], (r_lmove k2 f t n fd td) as [k4 o4]. cbn in E3, E4. subst o4.
    by destruct o3.
  Qed.
  Lemma move_frame n k f t fd td p : own f → own t → ¬ own p → (r_lmove k f t n fd td).1 !! p = k !! p.
  Proof.
    intros Hf Ht Hp. revert k. induction n as [|n IH]; intros k; [done|]. cbn [r_lmove].
    pose proof (move1_frame k f t fd td p Hf Ht Hp) as E. destruct (r_lmove1 k f t fd td) as [k1 o1]. cbn in E.
    destruct o1 as [o|e]; [|done]. specialize (IH k1). destruct (r_lmove k1 f t n fd td) as [k3 o3]. cbn in IH.
    destruct o3; cbn; by rewrite IH.
  Qed.
  Lemma call_own c X (e : eff X) w w' : mine X e → same_own name w w' →
    (redis_h c X e w).2 = (redis_h c X e w').2 ∧ same_own name (redis_h c X e w).1 (redis_h c X e w').1.
  Proof.
    intros [He _] (Hk & Hr & Hl). assert (agree (keys w) (keys w')) as Hag by exact Hk.
    destruct e as [l x|l l' n d d'|l x|l n d|l|h k v|h k| |m]; cbn in He |- *.
    - destruct He as [He _]. apply own_list in He. unfold r_lpush. rewrite <-(rlist_agree _ _ l He Hag).
      destruct (rlist (keys w) l); (split; [done|]); (split; [|done]); [|done]. by apply rset_agree.
    - destruct He as [H1 H2]. apply own_list in H1, H2. destruct (move_agree n _ _ l l' d d' H1 H2 Hag) as [E1 E2].
      destruct (r_lmove (keys w) _ _ _ _ _), (r_lmove (keys w') _ _ _ _ _). cbn in E1, E2. by subst.
    - apply own_list in He. unfold r_lrem. rewrite <-(rlist_agree _ _ l He Hag).
      destruct (rlist (keys w) l); (split; [done|]); (split; [|done]); [|done]. by apply rset_agree.
    - apply own_list in He. unfold r_get. by rewrite <-(rlist_agree _ _ l He Hag).
    - apply own_list in He. unfold r_llen. by rewrite <-(rlist_agree _ _ l He Hag).
    - destruct He as (-> & _). unfold r_hset. rewrite <-(Hag _ own_hash).
      destruct (keys w !! STORAGE_HASH) as [[ |m]|]; (split; [done|]); (split; [|done]); cbn; try done;
        (intros q Hq; destruct (decide (q = STORAGE_HASH)) as [->|]; [by rewrite !lookup_insert|by rewrite !lookup_insert_ne, Hk]).
    - destruct He as (-> & _). unfold r_hget. by rewrite <-(Hag _ own_hash).
    - rewrite Hr. split; [done|]. split; [exact Hk|done].
    - rewrite Hl. split; [done|]. split; [exact Hk|done].
  Qed.
  Lemma call_frame c X (e : eff X) w p : mine X e → ¬ own p → keys (redis_h c X e w).1 !! p = keys w !! p.
  Proof.
    intros [He _] Hp. destruct e as [l x|l l' n d d'|l x|l n d|l|h k v|h k| |m]; cbn in He |- *; try done.
    - destruct He as [He _]. apply own_list in He. unfold r_lpush. destruct (rlist (keys w) l); [|done].
      by apply (rset_frame (keys w) l).
    - destruct He as [H1 H2]. apply own_list in H1, H2. pose proof (move_frame n (keys w) l l' d d' p H1 H2 Hp) as E.
      by destruct (r_lmove (keys w) _ _ _ _ _).
    - apply own_list in He. unfold r_lrem. destruct (rlist (keys w) l); [|done]. by apply (rset_frame (keys w) l).
    - destruct He as (-> & _). unfold r_hset. assert (STORAGE_HASH ≠ p) by (intros <-; by apply Hp, own_hash).
      destruct (keys w !! STORAGE_HASH) as [[ |m]|]; cbn; by rewrite ?lookup_insert_ne.
  Qed.
  Lemma prog_mine {A} (p : prog A) (Q : A → Prop) :
    conf (M := M) (lists_of name) (λ _, True) p Q → portable (list_key name) p →
    RaceLoop.all_calls mine True p (λ _, True).
  Proof.
    induction p as [a| | |X e k IH]; try done. intros [Hw Hc] [Hp Hk]. split; [by split|].
    intros x. apply IH; [|apply Hk]. apply Hc. destruct e; try done; cbn.
    - destruct x as [ids|]; [|done]. by apply list.Forall_forall.
    - destruct x as [ids|]; [|done]. by apply list.Forall_forall.
    - by destruct x as [[v|]|].
  Qed.
  Lemma ev_mine prof sched c ts (e : event M) : RaceLoop.all_calls mine True (ev_prog prof sched name c ts e) (λ _, True).
  Proof.
    eapply prog_mine; [apply conf_ev_prog; [apply all_jobs|]|apply port_event]. induction e; done.
  Qed.

  (** *** The store with the same content *)
  Definition l_queues (k : keyspace) : gmap string (list string) :=
    omap (λ v, match v with RList l => Some l | RHash _ => None end) k.
  Definition l_storages (k : keyspace) : gmap string (gmap string value) :=
    omap (λ v, match v with RHash m => Some m | RList _ => None end) k.
  Definition loaded (w : rworld) : world := World (Store (l_queues (keys w)) (l_storages (keys w))) (rreads w) (rlog w).
  Definition own_b (q : string) : bool :=
    String.eqb q STORAGE_HASH || existsb (λ s, String.eqb q (format_queue_name name s)) [Queued; Running; Finished; Failed; Canceled].
  Lemma own_b_spec q : own_b q = true ↔ own q.
  Proof.
    unfold own_b, own_key. rewrite orb_true_iff, String.eqb_eq, existsb_exists. split; (intros [H|H]; [by left|right]).
    - destruct H as (s & _ & H). apply String.eqb_eq in H. by exists s.
    - destruct H as (s & H). exists s. split; [destruct s; cbn; tauto|]. by apply String.eqb_eq.
  Qed.
  Definition trimmed (w : rworld) : rworld :=
    RWorld (filter (λ kv, own_b kv.1 = true) (keys w)) (rreads w) (rlog w).
  Lemma trimmed_own w : same_own name w (trimmed w).
  Proof.
    split; [|done]. intros k Hk. cbn. symmetry. destruct (keys w !! k) as [v|] eqn:E.
    - apply map_filter_lookup_Some. split; [done|]. by apply own_b_spec.
    - apply map_filter_lookup_None. by left.
  Qed.
  Lemma trimmed_other w k : ¬ own k → keys (trimmed w) !! k = None.
  Proof.
    intros Hk. cbn. apply map_filter_lookup_None. right. intros v _. cbn. intros H. by apply Hk, own_b_spec.
  Qed.
  Lemma loaded_rel w : typed name w → redis_rel (list_key name) (loaded (trimmed w)) (trimmed w).
  Proof.
    intros [H1 H2]. destruct (trimmed_own w) as [Ho _]. split; [|split; [|done]].
    - intros q [s ->]. unfold rlist, ql, loaded. cbn [st queues]. unfold l_queues. rewrite lookup_omap.
      rewrite <-(Ho _ (own_list _ (lists_ok name s))). specialize (H1 s).
      destruct (keys w !! format_queue_name name s) as [[l|m]|]; try done. by destruct (H1 m).
    - intros h Hh. destruct (decide (h = STORAGE_HASH)) as [->|Hne].
      + assert (l_storages (keys (trimmed w)) !! STORAGE_HASH =
          match keys w !! STORAGE_HASH with Some (RHash m) => Some m | _ => None end) as E.
        { unfold l_storages. rewrite lookup_omap, <-(Ho _ own_hash). by destruct (keys w !! STORAGE_HASH) as [[l|m]|]. }
        rewrite <-(Ho _ own_hash). unfold mem_sget, loaded. cbn [st storages].
        destruct (keys w !! STORAGE_HASH) as [[l|m]|]; [by destruct (H2 l)|by rewrite E|by rewrite E].
      + rewrite trimmed_other by (intros [|H]; [done|]; by apply Hh).
        intros k. unfold mem_sget, loaded. cbn [st storages]. unfold l_storages. rewrite lookup_omap.
        by rewrite trimmed_other by (intros [|H]; [done|]; by apply Hh).
  Qed.
  Definition seen (w : world) (r : rworld) : Prop := ∃ r', same_own name r r' ∧ redis_rel (list_key name) w r'.
  Lemma seen_list w r s : seen w r → r_list name r s = qlist name w s.
  Proof.
    intros (r' & (Ho & _) & (Hq & _)). specialize (Hq (format_queue_name name s) ltac:(by exists s)).
    unfold r_list. rewrite (Ho _ (own_list _ (lists_ok name s))). unfold rlist, ql in Hq. unfold qlist.
    destruct (keys r' !! _) as [[l|m]|]; congruence.
  Qed.
  Lemma seen_record w r id : seen w r → r_record (M := M) r id = stored w id.
  Proof.
    intros (r' & (Ho & _) & (_ & Hh & _)). specialize (Hh _ (list_key_storage name)).
    unfold r_record, stored. rewrite (Ho _ own_hash). destruct (keys r' !! STORAGE_HASH) as [[l|m]|]; [done| |]; by rewrite Hh.
  Qed.
  Lemma seen_reads w r : seen w r → reads w = rreads r.
  Proof. intros (r' & (_ & E & _) & (_ & _ & E' & _)). by rewrite E. Qed.
  Lemma seen_typed w r : seen w r → typed name r.
  Proof.
    intros (r' & (Ho & _) & (Hq & Hh & _)). split.
    - intros s m. rewrite (Ho _ (own_list _ (lists_ok name s))). specialize (Hq _ (list_key_name name s)).
      unfold rlist in Hq. intros E. by rewrite E in Hq.
    - intros l. rewrite (Ho _ own_hash). specialize (Hh _ (list_key_storage name)). intros E. by rewrite E in Hh.
  Qed.
  Lemma seen_call c X (e : eff X) w r : mine X e → seen w r →
    (mem_h c X e w).2 = (redis_h c X e r).2 ∧ seen (mem_h c X e w).1 (redis_h c X e r).1.
  Proof.
    intros He (r' & H1 & H2). destruct (call_own c X e r r' He H1) as [E1 E2].
    destruct (redis_sim _ (list_key_dec name) c X e w r' (proj2 He) H2) as [E3 E4].
    split; [by rewrite E1|]. by exists (redis_h c X e r').1.
  Qed.
End keys.

(** *** Keys of the wrong type *)
Section jam.
  Context {M : Type} `{SM : Serde M}.
  Context (prof : profile).
  Context (sched : string → option (time → option time)).
  Context (name : string).
  Context (clock : nat → time).
  Notation H := (redis_h clock).
  Notation go := (sys_run prof sched name (redis_h clock)).
  Notation qn := (format_queue_name name).
  Notation hash k s := (rlist k (qn s) = None) (only parsing).

  Lemma hash_iff k q : rlist k q = None ↔ ∃ m, k !! q = Some (RHash m).
  Proof.
    unfold rlist. destruct (k !! q) as [[l|m]|]; split; try done; try (by intros [? ?]). by exists m.
  Qed.
  Lemma calls_refused (w : rworld) :
    (∀ q m x q' n d d' l, keys w !! q = Some (RHash m) →
       H _ (QPush q x) w = (w, Err ERedis) ∧ H _ (QRemove q x) w = (w, Err ERedis) ∧
       H _ (QGet q n d) w = (w, Err ERedis) ∧ H _ (QCount q) w = (w, Err ERedis) ∧
       H _ (QMove q q' (S n) d d') w = (w, Err ERedis) ∧
       (keys w !! q' = Some (RList (x :: l)) → H _ (QMove q' q (S n) d d') w = (w, Err ERedis))) ∧
    (∀ h l k v, keys w !! h = Some (RList l) →
       H _ (SUpsert h k v) w = (w, Err ERedis) ∧ H _ (SGet h k) w = (w, Err ERedis)).
  Proof.
    assert (∀ r, (set_keys w (keys w), r : result unit) = (w, r)) as Eu by by destruct w.
    assert (∀ r, (set_keys w (keys w), r : result (list string)) = (w, r)) as El by by destruct w.
    split.
    - intros q m x q' n d d' l Hq. assert (rlist (keys w) q = None) as E by (apply hash_iff; by exists m). cbn [redis_h r_lmove].
      unfold r_lpush, r_lrem, r_get, r_llen, r_lmove1. rewrite E, Eu, El. do 5 (split; [done|]). intros Hq'.
      assert (rlist (keys w) q' = Some (x :: l)) as -> by (unfold rlist; by rewrite Hq').
      destruct (pop d (x :: l)) as [[y l2]|] eqn:Ep; [by rewrite El|]. exfalso. revert Ep. clear. destruct d; [done|].
      unfold pop, pop_back. cbn [rev]. destruct (rev l ++ [x]) eqn:E; [|done]. by apply app_eq_nil in E as [_ ?].
    - intros h l k v Hh. cbn [redis_h]. unfold r_hset, r_hget. by rewrite Hh, Eu.
  Qed.
  Lemma rset_keeps k q l p m : rlist k q ≠ None → k !! p = Some (RHash m) → rset k q l !! p = Some (RHash m).
  Proof.
    intros Hq Hp. rewrite rset_lookup_ne; [done|]. intros ->. apply Hq, hash_iff. by exists m.
  Qed.
  Lemma move1_keeps k f t fd td p m : k !! p = Some (RHash m) → (r_lmove1 k f t fd td).1 !! p = Some (RHash m).
  Proof.
    intros Hp. unfold r_lmove1. destruct (rlist k f) as [l|] eqn:E1; [|done]. destruct (pop fd l) as [[x l']|]; [|done].
    destruct (rlist k t) eqn:E2; [|done]. destruct (rlist (rset k f l') t) eqn:E3; [|done].
    apply (rset_keeps (rset k f l') t); [by rewrite E3|]. apply (rset_keeps k f); [by rewrite E1|done].
  Qed.
  Lemma move_keeps n k f t fd td p m : k !! p = Some (RHash m) → (r_lmove k f t n fd td).1 !! p = Some (RHash m).
  Proof.
    revert k. induction n as [|n IH]; intros k Hp; [done|]. cbn [r_lmove].
    pose proof (move1_keeps k f t fd td p m Hp) as E. destruct (r_lmove1 k f t fd td) as [k1 [o|e]]; cbn in E; [|done].
    specialize (IH k1 E). destruct (r_lmove k1 f t n fd td) as [k3 [o3|e]]; done.
  Qed.
  (** A hash under the key of a list stays as it is, and so does a list under the key of the records. *)
  Definition stuck (p : string) (v : rval) : Prop :=
    match v with RHash _ => lists_of name p | RList _ => p = STORAGE_HASH end.
  Lemma call_stuck X (e : eff X) w p v :
    mine (M := M) name X e → stuck p v → keys w !! p = Some v → keys (H X e w).1 !! p = Some v.
  Proof.
    intros [He _] Hs Hp. assert (∀ q, lists_of name q → STORAGE_HASH ≠ q) as Hne.
    { intros q [s ->] Hq. by apply (list_key_storage name); exists s. }
    destruct v as [l0|m]; cbn in Hs.
    - subst p. destruct e as [l x|l l' n d d'|l x|l n d|l|h k v|h k| |m]; cbn in He |- *; try done.
      + destruct He as [He _]. unfold r_lpush. destruct (rlist (keys w) l); [|done]. cbn [fst keys set_keys].
        rewrite rset_lookup_ne; [done|]. by apply Hne.
      + destruct He as [H1 H2]. assert (∀ k, k !! STORAGE_HASH = Some (RList l0) →
          (r_lmove k l l' n d d').1 !! STORAGE_HASH = Some (RList l0)) as G.
        { clear -H1 H2 Hne. induction n as [|n IH]; intros k Hk; [done|]. cbn [r_lmove].
          assert ((r_lmove1 k l l' d d').1 !! STORAGE_HASH = Some (RList l0)) as E.
          { unfold r_lmove1. destruct (rlist k l) as [l2|]; [|done]. destruct (pop d l2) as [[x l3]|]; [|done].
            destruct (rlist k l'); [|done]. destruct (rlist (rset k l l3) l'); [|done]. cbn [fst].
            rewrite !rset_lookup_ne; [done|by apply Hne..]. }
          destruct (r_lmove1 k l l' d d') as [k1 [o|er]]; cbn in E; [|done].
          specialize (IH k1 E). destruct (r_lmove k1 l l' n d d') as [k3 [o3|er]]; done. }
        specialize (G _ Hp). by destruct (r_lmove (keys w) _ _ _ _ _).
      + unfold r_lrem. destruct (rlist (keys w) l); [|done]. cbn [fst keys set_keys].
        rewrite rset_lookup_ne; [done|]. by apply Hne.
      + destruct He as (-> & _). unfold r_hset. by rewrite Hp.
    - destruct e as [l x|l l' n d d'|l x|l n d|l|h k v|h k| |m']; cbn in He |- *; try done.
      + unfold r_lpush. destruct (rlist (keys w) l) eqn:E; [|done]. apply (rset_keeps (keys w) l); [by rewrite E|done].
      + pose proof (move_keeps n (keys w) l l' d d' p m Hp) as G. by destruct (r_lmove (keys w) _ _ _ _ _).
      + unfold r_lrem. destruct (rlist (keys w) l) eqn:E; [|done]. apply (rset_keeps (keys w) l); [by rewrite E|done].
      + destruct He as (-> & _). unfold r_hset. destruct (keys w !! STORAGE_HASH) as [[ |m1]|]; [done| |];
          cbn [fst keys set_keys]; (rewrite lookup_insert_ne; [done|by apply Hne]).
  Qed.
  Lemma run_stuck s (es : list (event M)) p v : stuck p v → keys (sw s) !! p = Some v → keys (sw (go s es)) !! p = Some v.
  Proof.
    intros Hs Hp. pose (R := λ w w' : rworld, w = w' ∧ keys w !! p = Some v).
    assert (gsame R (go s es) (go s es)) as [[_ G] _]; [|exact G].
    apply (sys_gsim H H R (mine (M := M) name)).
    - intros X e w1 w2 He [<- G]. split; [done|]. split; [done|]. by apply (call_stuck X e w1).
    - intros c ts e. apply ev_mine.
    - by repeat split.
  Qed.
  Lemma jammed_stuck w : jammed name w ↔ ∃ p v, stuck p v ∧ keys w !! p = Some v ∧
    (p = STORAGE_HASH ∨ p = qn Queued ∨ p = qn Running).
  Proof.
    split.
    - intros [[m E]|[[m E]|[l E]]].
      + exists (qn Queued), (RHash m). split; [by exists Queued|]. auto.
      + exists (qn Running), (RHash m). split; [by exists Running|]. auto.
      + exists STORAGE_HASH, (RList l). split; [done|]. auto.
    - intros (p & [l|m] & Hs & Hp & Hc); cbn in Hs.
      + subst p. right. right. by exists l.
      + destruct Hs as [x ->]. destruct Hc as [Hc|[Hc|Hc]].
        * exfalso. apply (list_key_storage name). exists x. done.
        * left. exists m. by rewrite <-Hc.
        * right. left. exists m. by rewrite <-Hc.
  Qed.
  Lemma run_jammed s (es : list (event M)) : jammed name (sw s) → jammed name (sw (go s es)).
  Proof.
    rewrite !jammed_stuck. intros (p & v & H1 & H2 & H3). exists p, v. split; [done|]. split; [|done]. by apply run_stuck.
  Qed.
  (** A batch of a jammed queue finds nothing, as long as the waiting list has entries. *)
  Lemma batch_jam total ids (ready : list (job M)) w l x :
    (rlist (keys w) (qn Running) = None ∨ ∃ l', keys w !! STORAGE_HASH = Some (RList l')) →
    rlist (keys w) (qn Queued) = Some (x :: l) →
    let '(w', o) := run H (pick_batch name total ids ready) w in
    (∃ r, o = Done r ∧ (r = Ok ready ∨ ∃ e, r = Err e)) ∧
    (rlist (keys w') (qn Running) = None ∨ ∃ l', keys w' !! STORAGE_HASH = Some (RList l')) ∧
    ∃ x' l', rlist (keys w') (qn Queued) = Some (x' :: l').
  Proof.
    revert w x l. induction ids as [|id ids IH]; intros w x l Hj Hq.
    { cbn. split; [|eauto]. eexists. split; [done|]. by left. }
    assert (∀ w1 x l, 
      (rlist (keys w1) (qn Running) = None ∨ ∃ l', keys w1 !! STORAGE_HASH = Some (RList l')) →
      rlist (keys w1) (qn Queued) = Some (x :: l) →
      let '(w', o) := run H (let? _ := do (QMove (qn Queued) (qn Queued) 1 Back Front) in pick_batch name total ids ready) w1 in
      (∃ r, o = Done r ∧ (r = Ok ready ∨ ∃ e, r = Err e)) ∧
      (rlist (keys w') (qn Running) = None ∨ ∃ l', keys w' !! STORAGE_HASH = Some (RList l')) ∧
      ∃ x' l', rlist (keys w') (qn Queued) = Some (x' :: l')) as Hrot.
    { clear w x l Hj Hq. intros w x l Hj Hq. rewrite run_bind'. cbn [run do redis_h].
      assert (∃ k x' l', r_lmove (keys w) (qn Queued) (qn Queued) 1 Back Front = (k, Ok [x']) ∧
        rlist k (qn Queued) = Some (x' :: l') ∧ (∀ p, p ≠ qn Queued → k !! p = keys w !! p)) as (k & x' & l' & -> & K1 & K2).
      { cbn [r_lmove]. unfold r_lmove1. rewrite Hq. destruct (pop Back (x :: l)) as [[y l2]|] eqn:Ep.
        - rewrite rlist_rset, String.eqb_refl. eexists _, y, l2. split; [done|].
          split; [by rewrite rlist_rset, String.eqb_refl|]. intros p Hp. by rewrite !rset_lookup_ne.
        - exfalso. revert Ep. clear. unfold pop, pop_back. cbn [rev]. destruct (rev l ++ [x]) eqn:E; [|done]. by apply app_eq_nil in E as [_ ?]. }
      apply (IH (set_keys w k) x' l'); [|done]. cbn [keys set_keys]. destruct Hj as [Hj|[l3 Hj]]; [left|right].
      - unfold rlist in *. rewrite K2; [done|]. intros E. by apply queue_key_inj in E as [_ ?].
      - exists l3. rewrite K2; [done|]. intros E. apply (list_key_storage name). by exists Queued. }
    cbn [pick_batch]. cbv zeta. rewrite run_bind'. unfold get_from_storage. rewrite run_bind'. cbn [run do redis_h].
    set (v := match r_hget (keys w) STORAGE_HASH id with Ok o => o | Err _ => None end).
    destruct (match v with Some (Some js) => dec_job js | _ => None end) as [j|] eqn:Ev; [|by eapply Hrot].
    rewrite run_bind'. cbn [run do redis_h get_now].
    destruct (_ && _); [|by eapply (Hrot (RWorld (keys w) _ _))].
    destruct Hj as [Hj|[l3 Hj]].
    2:{ exfalso. subst v. unfold r_hget in Ev. by rewrite Hj in Ev. }
    assert (∀ w0, ∃ w1 r, run H (job_process j) w0 = (w1, Done r) ∧ ∀ p, p ≠ STORAGE_HASH → keys w1 !! p = keys w0 !! p) as Hproc.
    { intros w0. unfold job_process, save_and_notify, upsert_to_storage. cbn [run do redis_h get_now_as_ms get_now bind].
      unfold r_hset. cbn [keys]. destruct (keys w0 !! STORAGE_HASH) as [[l1|m1]|]; cbn [run bind do redis_h set_keys keys];
        (eexists _, _; split; [reflexivity|]); cbn [keys]; intros p Hp; by rewrite ?lookup_insert_ne. }
    rewrite run_bind'. destruct (Hproc (RWorld (keys w) (S (rreads w)) (rlog w))) as (w1 & r & -> & Hw1). cbn [keys] in Hw1.
    assert (rlist (keys w1) (qn Running) = None) as E1.
    { unfold rlist. rewrite Hw1; [exact Hj|]. apply queue_key_not_storage. }
    assert (rlist (keys w1) (qn Queued) = Some (x :: l)) as E2.
    { unfold rlist. rewrite Hw1; [exact Hq|]. apply queue_key_not_storage. }
    destruct r as [j'|e].
    2:{ cbn. split; [|eauto]. eexists. split; [done|]. right. by eexists. }
    rewrite run_bind'. cbn [run do redis_h r_lmove]. unfold r_lmove1. rewrite E2.
    destruct (pop Back (x :: l)) as [[y l2]|] eqn:Ep.
    - rewrite E1. cbn. split; [|eauto]. eexists. split; [done|]. right. by eexists.
    - exfalso. revert Ep. clear. unfold pop, pop_back. cbn [rev]. destruct (rev l ++ [x]) eqn:E; [|done]. by apply app_eq_nil in E as [_ ?].
  Qed.
  Lemma loop_jam fuel total (ready : list (job M)) c w :
    (rlist (keys w) (qn Running) = None ∨ ∃ l', keys w !! STORAGE_HASH = Some (RList l')) →
    ∀ r, (run H (pick_loop prof name fuel total ready c) w).2 = Done r → r = Ok ready ∨ ∃ e, r = Err e.
  Proof.
    revert c w. induction fuel as [|fuel IH]; intros c w Hj r; [done|]. cbn [pick_loop]. rewrite run_bind'.
    cbn [run do redis_h]. destruct (rlist (keys w) (qn Queued)) as [l|] eqn:Hq.
    2:{ unfold r_get. rewrite Hq. cbn. intros [= <-]. right. by eexists. }
    destruct l as [|x l].
    { assert (r_get (keys w) (qn Queued) BATCH Back = Ok []) as ->.
      { unfold r_get. rewrite Hq. done. }
      cbn [length]. destruct (i32_norm prof _) as [c'|]; [|done]. cbn [pick_batch bind].
      destruct (total <=? length ready)%nat; [cbn; intros [= <-]; by left|].
      destruct (c' <=? 0); [cbn; intros [= <-]; by left|]. by apply IH. }
    assert (∃ ids, r_get (keys w) (qn Queued) BATCH Back = Ok ids) as [ids ->].
    { unfold r_get. rewrite Hq. eauto. }
    destruct (i32_norm prof _) as [c'|]; [|done]. rewrite run_bind'.
    pose proof (batch_jam total ids ready w l x Hj Hq) as Hb. destruct (run H (pick_batch name total ids ready) w) as [w' o].
    destruct Hb as ((r' & -> & [-> |[e ->]]) & Hj' & _).
    2:{ cbn. intros [= <-]. right. by eexists. }
    destruct (total <=? length ready)%nat; [cbn; intros [= <-]; by left|].
    destruct (c' <=? 0); [cbn; intros [= <-]; by left|]. by apply IH.
  Qed.
  Lemma pick_jam n w r : jammed name w → (run H (pick_jobs_to_process (M := M) prof name n) w).2 = Done r → r = Ok [] ∨ ∃ e, r = Err e.
  Proof.
    intros Hj. unfold pick_jobs_to_process. rewrite run_bind'. cbn [run do redis_h].
    destruct (n <=? _)%nat; [cbn; intros [= <-]; by left|].
    unfold try_pick_specific_ready_jobs. rewrite run_bind'. cbn [run do redis_h]. unfold r_llen at 1.
    destruct (rlist (keys w) (qn Queued)) as [l|] eqn:Hq.
    2:{ cbn. intros [= <-]. right. by eexists. }
    apply loop_jam. destruct Hj as [Hj|[Hj|Hj]]; [|left|by right].
    - apply hash_iff in Hj. congruence.
    - by apply hash_iff.
  Qed.
  Lemma jam_idle s (es : list (event M)) :
    jammed name (sw s) → tasks s = [] → tasks (go s es) = [] ∧ runs (go s es) = runs s.
  Proof.
    revert s. induction es as [|e es IH]; intros s Hj Ht; [done|]. cbn [sys_run fold_left].
    change (tasks (go (sys_step prof sched name H s e).1 es) = [] ∧ runs (go (sys_step prof sched name H s e).1 es) = runs s).
    assert (tasks (sys_step prof sched name H s e).1 = [] ∧ runs (sys_step prof sched name H s e).1 = runs s) as [E1 E2].
    { assert (∀ e, tasks (commit prof sched name H s e).1 = [] ∧ runs (commit prof sched name H s e).1 = runs s) as Hc.
      { clear -Hj Ht. intros e. unfold commit. rewrite Ht.
        assert (∀ w x, run H (ev_prog prof sched name (cfg s) [] e) (sw s) = (w, Done x) → x.1.1.2 = [] ∧ x.1.2 = []) as G.
        { intros w x. assert (∀ n, ∀ w x, run H (process_jobs (M := M) prof name n []) (sw s) = (w, Done x) → x = []) as Hp.
          { clear -Hj. intros c w x. unfold process_jobs. rewrite run_bind'. destruct (run H _ (sw s)) as [w1 [r| |]] eqn:E; [|done|done].
            pose proof (pick_jam (max_processing_jobs c) (sw s) r Hj) as G. rewrite E in G.
            destruct (G eq_refl) as [-> |[e' ->]]; cbn; by intros [= _ <-]. }
          destruct e; cbn [ev_prog]; rewrite ?lookup_nil, ?run_bind'; try (by cbn; intros [= _ <-]);
            try (destruct (run H _ (sw s)) as [w1 [r| |]]; cbn; try done; by intros [= _ <-]).
          - destruct (run H _ (sw s)) as [w1 [r| |]] eqn:E; cbn; try done. apply Hp in E as ->. by intros [= _ <-].
          - destruct (run H _ (sw s)) as [w1 [r| |]] eqn:E; cbn; try done. apply Hp in E as ->. by intros [= _ <-]. }
        destruct (run H _ (sw s)) as [w [x| |]]; [|done..]. destruct x as [[[c ts] js] rr].
        destruct (G _ _ eq_refl) as [G1 G2]. cbn in G1, G2. subst. cbn. by rewrite ?app_nil_r. }
      unfold sys_step. destruct (alive s); destruct e; try (apply Hc); cbn; rewrite ?Ht; try done.
      destruct e; cbn; by rewrite ?Ht. }
    destruct (IH (sys_step prof sched name H s e).1 (run_jammed s [e] Hj) E1) as [-> ->]. done.
  Qed.
End jam.

(** *** Histories *)
Section facts.
  Context {M : Type} `{SM : Serde M} {SO : SerdeOk M}.
  Context (prof : profile).
  Context (sched : string → option (time → option time)).
  Context (name : string).
  Context (clock : nat → time).
  Notation go := (sys_run prof sched name (redis_h clock)).
  Notation mgo := (sys_run prof sched name (mem_h clock)).
  Notation rlist := (r_list name).
  Notation record := (@r_record M SM).
  Implicit Types s : sys rworld M.

  Lemma keys_frame s es k : ¬ own_key name k → keys (sw (go s es)) !! k = keys (sw s) !! k.
  Proof.
    intros Hk. pose (R := λ w w' : rworld, w = w' ∧ keys w !! k = keys (sw s) !! k).
    assert (gsame R (go s es) (go s es)) as [[_ H] _]; [|exact H].
    apply (sys_gsim (redis_h clock) (redis_h clock) R (mine (M := M) name)).
    - intros X e w1 w2 He [<- H]. split; [done|]. split; [done|]. by rewrite (call_frame (M := M) name).
    - intros c ts e. apply ev_mine.
    - by repeat split.
  Qed.
  Lemma keys_blind s s' es :
    same_own name (sw s) (sw s') → same_process s s' →
    responses prof sched name (redis_h clock) s es = responses prof sched name (redis_h clock) s' es ∧
    same_own name (sw (go s es)) (sw (go s' es)) ∧ same_process (go s es) (go s' es).
  Proof.
    intros H1 H2. apply (sys_gsim (redis_h clock) (redis_h clock) (same_own name) (mine (M := M) name)); [| |by split].
    - intros X e w1 w2. apply call_own.
    - intros c ts e. apply ev_mine.
  Qed.
  Lemma keys_noise noise (s : sys (rworld * nat) M) s' es :
    polite name noise → same_own name (sw s).1 (sw s') → same_process s s' →
    let t := sys_run prof sched name (noisy_h clock noise) s es in
    responses prof sched name (noisy_h clock noise) s es = responses prof sched name (redis_h clock) s' es ∧
    same_own name (sw t).1 (sw (go s' es)) ∧ same_process t (go s' es).
  Proof.
    intros Hn H1 H2. apply (sys_gsim (noisy_h clock noise) (redis_h clock) (λ w w', same_own name w.1 w') (mine (M := M) name)); [| |by split].
    - intros X e [w1 n] w2 He HR. unfold noisy_h. cbn [fst snd] in *.
      destruct (call_own (M := M) name clock X e (RWorld (noise n (keys w1)) (rreads w1) (rlog w1)) w2 He) as [E1 E2].
      { destruct HR as (A & B & C). split; [|done]. intros k Hk. cbn [keys]. rewrite Hn by done. by apply A. }
      destruct (redis_h clock X e _) as [r x]. done.
    - intros c ts e. apply ev_mine.
  Qed.
  (** The twin on the in-memory store. *)
  Definition twin s : sys world M := Sys (loaded (trimmed name (sw s))) (cfg s) (tasks s) (alive s) (runs s).
  Definition like (z : sys world M) s : Prop := gsame (seen name) z s.
  Lemma twin_like s : typed name (sw s) → like (twin s) s.
  Proof.
    intros H. split; [|done]. exists (trimmed name (sw s)). split; [apply trimmed_own|by apply loaded_rel].
  Qed.
  Lemma like_run z s es : like z s →
    responses prof sched name (mem_h clock) z es = responses prof sched name (redis_h clock) s es ∧ like (mgo z es) (go s es).
  Proof.
    intros H. apply (sys_gsim (mem_h clock) (redis_h clock) (seen name) (mine (M := M) name)); [| |done].
    - intros X e w1 w2. apply seen_call.
    - intros c ts e. apply ev_mine.
  Qed.
  Lemma any_keyspace s :
    typed name (sw s) → ∃ z : sys world M,
      (∀ es, responses prof sched name (mem_h clock) z es = responses prof sched name (redis_h clock) s es) ∧
      ∀ es, same_process (mgo z es) (go s es) ∧ typed name (sw (go s es)) ∧
        (∀ x, rlist (sw (go s es)) x = qlist name (sw (mgo z es)) x) ∧
        (∀ id, record (sw (go s es)) id = stored (sw (mgo z es)) id).
  Proof.
    intros Ht. pose proof (twin_like s Ht) as Hl. exists (twin s). split; [intros es; by apply like_run|].
    intros es. destruct (like_run _ _ es Hl) as [_ [H1 H2]]. split; [done|]. split; [exact (seen_typed name _ _ H1)|].
    split; intros ?; [by apply seen_list|by apply (seen_record (M := M) name)].
  Qed.
  Lemma like_sound z s : like z s → k_sound name s → SpecAny.sound z.
  Proof.
    intros [H1 (E1 & E2 & E3 & E4)] (A & _ & B & C). split; [congruence|]. rewrite E2. split; [|done].
    intros id j. rewrite <-(seen_record (M := M) name _ _ _ H1). apply B.
  Qed.
  Lemma like_runs z s id : like z s → runs_of id z = runs_of id s.
  Proof. intros [_ (_ & _ & _ & E)]. unfold runs_of. by rewrite E. Qed.
  Lemma like_limbo z s id : like z s → in_limbo name z id ↔ k_limbo name s id.
  Proof.
    intros [H1 (_ & E & _)]. unfold in_limbo, k_limbo, status_of, k_status.
    by rewrite (seen_record (M := M) name _ _ _ H1), (seen_list name _ _ _ H1), E.
  Qed.
  Lemma k_way_back s (j : job M) d u :
    k_sound name s → k_status s (jid j) ≠ Some Running →
    Z.of_nat (S (length (rlist (sw s) Queued))) <= i32_max →
    (∀ j' k, read_back j j' → due j' (clock k)) →
    ∃ c i, process_tick_duration c = d ∧
      let z := go s (rescue j c i u) in
      alive z = true ∧ ∃ x, runs_of (jid j) z = runs_of (jid j) s ++ [x] ∧ jid x = jid j ∧ data x = data j.
  Proof.
    intros Hs H1 H2 H3. pose proof Hs as (_ & Ht & _). pose proof (twin_like s Ht) as Hl.
    destruct (way_back prof sched name clock (twin s) j d u) as (c & i & E & A & x & B); [| | |done|].
    - by eapply like_sound.
    - unfold status_of. by rewrite <-(seen_record (M := M) name _ _ _ (proj1 Hl)).
    - by rewrite <-(seen_list name _ _ _ (proj1 Hl)).
    - exists c, i. split; [done|]. destruct (like_run _ _ (rescue j c i u) Hl) as [_ Hz]. cbv zeta.
      rewrite <-(like_runs _ _ _ Hz), <-(like_runs _ _ _ Hl). pose proof Hz as [_ (_ & _ & <- & _)].
      split; [done|]. by exists x.
  Qed.
  Lemma k_no_way s id es :
    typed name (sw s) → (∀ k j, record (sw s) k = Some j → jid j = k) → (∀ t, t ∈ tasks s → sound_task t) →
    k_limbo name s id → k_limbo name (go s es) id ∧ runs_of id (go s es) = runs_of id s.
  Proof.
    intros Ht H1 H2 H3. pose proof (twin_like s Ht) as Hl.
    destruct (like_run _ _ es Hl) as [_ Hz]. rewrite <-(like_runs _ _ _ Hz), <-(like_runs _ _ _ Hl), <-(like_limbo _ _ _ Hz).
    apply no_way_out; [|done|by apply (like_limbo _ _ _ Hl)].
    intros k j. rewrite <-(seen_record (M := M) name _ _ _ (proj1 Hl)). apply H1.
  Qed.
  Lemma k_exactly s (j : job M) :
    k_sound name s → jid j ∉ map tid (tasks s) →
    Z.of_nat (S (length (rlist (sw s) Queued))) <= i32_max →
    (∀ j' k, read_back j j' → due j' (clock k)) →
    (∀ r k, record (sw s) (jid j) = Some r → jstatus (ctx r) = Running → (rreads (sw s) <= k)%nat → due r (clock k)) →
    (∃ es, (length (runs_of (jid j) s) < length (runs_of (jid j) (go s es)))%nat) ↔ ¬ k_limbo name s (jid j).
  Proof.
    intros Hs H1 H2 H3 H4. pose proof Hs as (_ & Ht & _). pose proof (twin_like s Ht) as Hl.
    rewrite <-(like_limbo _ _ _ Hl). rewrite <-(back_iff prof sched name clock (twin s) j); [| |done| |done|].
    - split; intros (es & H); exists es; destruct (like_run _ _ es Hl) as [_ Hz];
        [rewrite (like_runs _ _ _ Hz), (like_runs _ _ _ Hl)|rewrite <-(like_runs _ _ _ Hz), <-(like_runs _ _ _ Hl)]; done.
    - by eapply like_sound.
    - by rewrite <-(seen_list name _ _ _ (proj1 Hl)).
    - intros r k. rewrite <-(seen_record (M := M) name _ _ _ (proj1 Hl)), (seen_reads name _ _ (proj1 Hl)). apply H4.
  Qed.
  Lemma k_progress s0 (ev : nat → event M) n0 id j B :
    k_sound name s0 → k_healthy prof sched name clock s0 ev → ticking ev → k_polling prof sched name clock s0 ev →
    let s n := k_moment prof sched name clock s0 ev n in
    id ∈ rlist (sw (s n0)) Queued → record (sw (s n0)) id = Some j → id ∉ map tid (tasks (s n0)) →
    (∀ n, (n0 <= n)%nat → ¬ revives id (ev n) ∧ ev n ≠ EvCancel id) →
    (∃ k0, ∀ k, (k0 <= k)%nat → due j (clock k)) →
    (∀ d, (k_added prof sched name clock s0 ev n0 d <= B)%nat) →
    ∃ n1, (n0 <= n1)%nat ∧ (length (runs_of id (s n0)) < length (runs_of id (s n1)))%nat.
  Proof.
    intros Hs Hh Htk Hp s Hin Hrec Hnt Hq Hd HB. pose proof Hs as (_ & Ht & _). pose proof (twin_like s0 Ht) as Hl.
    assert (∀ n, like (a_moment prof sched name clock (twin s0) ev n) (s n)) as Hm by (intros n; by apply like_run).
    assert (∀ n x, rlist (sw (s n)) x = qlist name (sw (a_moment prof sched name clock (twin s0) ev n)) x) as HL.
    { intros n x. by apply seen_list, Hm. }
    assert (∀ n, tasks (a_moment prof sched name clock (twin s0) ev n) = tasks (s n)) as HT.
    { intros n. by destruct (Hm n) as [_ (_ & E & _)]. }
    destruct (a_progress prof sched name clock (twin s0) ev) with (n0 := n0) (id := id) (j := j) (B := B) as (n1 & E1 & E2).
    - by eapply like_sound.
    - intros n. destruct (Hh n) as (A1 & A2 & A3 & A4). split; [done|].
      destruct (Hm n) as [_ (C1 & C2 & C3 & _)]. rewrite C1, C3, <-HL. split; [done|]. split; [|done].
      unfold a_lost, k_lost in *. by rewrite <-(seen_list name _ _ _ (proj1 Hl)).
    - done.
    - intros n t. rewrite HT. intros Hint. destruct (Hp n t Hint) as (m & i & u & A1 & A2 & A3). exists m, i, u.
      by rewrite HT.
    - split; [by rewrite <-HL|]. rewrite HT. split; [|done]. by rewrite <-(seen_record (M := M) name _ _ _ (proj1 (Hm n0))).
    - done.
    - done.
    - intros d. etrans; [|apply (HB d)]. apply Nat.eq_le_incl. clear -HL. unfold k_added. revert n0.
      induction d as [|d IH]; intros n0; [done|]. cbn [seq map arrivals sum_list_with].
      assert (∀ n, (sys_step prof sched name (mem_h clock) (a_moment prof sched name clock (twin s0) ev n) (ev n)).1 =
        a_moment prof sched name clock (twin s0) ev (S n)) as Hstep.
      { intros n. unfold a_moment. rewrite seq_S, map_app. unfold sys_run. by rewrite fold_left_app. }
      rewrite Hstep, IH. unfold s in HL. by rewrite !HL.
    - exists n1. split; [done|]. by rewrite <-!(like_runs _ _ _ (Hm _)).
  Qed.
  (** Nothing waits: a tick changes nothing; without tasks a poll changes nothing. *)
  Lemma r_tick_nothing s : alive s = true → rlist (sw s) Queued = [] → typed name (sw s) → (sys_step prof sched name (redis_h clock) s EvTick).1 = s.
  Proof.
    intros Ha Hq [Ht _].
    assert (Backend.rlist (keys (sw s)) (format_queue_name name Queued) = Some []) as E.
    { unfold r_list in Hq. unfold Backend.rlist. specialize (Ht Queued).
      destruct (keys (sw s) !! _) as [[l|m]|]; [by rewrite Hq|by destruct (Ht m)|done]. }
    unfold sys_step. rewrite Ha. unfold commit. cbn [ev_prog]. unfold process_jobs, pick_jobs_to_process. rewrite !run_bind'.
    cbn [run do redis_h]. assert (∀ n, (run (redis_h clock) (try_pick_specific_ready_jobs (M := M) prof name n) (sw s)) = (sw s, Done (Ok []))) as G.
    { intros n. unfold try_pick_specific_ready_jobs. rewrite run_bind'. cbn [run do redis_h]. unfold r_llen. rewrite E.
      cbn [length pick_loop]. rewrite run_bind'. cbn [run do redis_h]. unfold r_get. rewrite E.
      destruct prof; cbn; destruct n; done. }
    destruct (_ <=? _)%nat; [|rewrite G]; cbn; rewrite !app_nil_r; destruct s; cbn in *; by subst.
  Qed.
  Lemma r_poll_nothing s i u : alive s = true → tasks s = [] → (sys_step prof sched name (redis_h clock) s (EvTask i u)).1 = s.
  Proof.
    intros Ha Ht. unfold sys_step. rewrite Ha. unfold commit. cbn [ev_prog]. rewrite Ht, lookup_nil. cbn.
    rewrite app_nil_r. destruct s; cbn in *; by subst.
  Qed.
  Lemma k_S s0 (ev : nat → event M) n : k_moment prof sched name clock s0 ev (S n) =
    (sys_step prof sched name (redis_h clock) (k_moment prof sched name clock s0 ev n) (ev n)).1.
  Proof. unfold k_moment. rewrite seq_S, map_app. cbn [map]. unfold sys_run. by rewrite fold_left_app. Qed.
End facts.
