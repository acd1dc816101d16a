(** A queue on a Redis server whose other users change anything but its lists and records. *)
From Verif Require Import Spec SpecNoise BackendFacts RedisFacts MultiFacts KeysFacts.
Import Spec.
Open Scope Z_scope.

(** *** Simulations of programs that touch certain lists and records only *)
Section csim.
  Context {M : Type} `{SM : Serde M}.
  Context {W1 W2 : Type} (h1 : handler W1) (h2 : handler W2) (R : W1 → W2 → Prop) (L K lk : string → Prop).
  Context (Hsim : ∀ X (e : eff X) w1 w2, within (M := M) L K e → portable_call lk e → R w1 w2 →
    (h1 X e w1).2 = (h2 X e w2).2 ∧ MultiFacts.sound (M := M) K e (h2 X e w2).2 ∧ R (h1 X e w1).1 (h2 X e w2).1).
  Lemma run_csim {A} (p : prog A) (Q : A → Prop) w1 w2 :
    conf (M := M) L K p Q → portable lk p → R w1 w2 →
    (run h1 p w1).2 = (run h2 p w2).2 ∧ R (run h1 p w1).1 (run h2 p w2).1.
  Proof using Hsim.
    revert w1 w2. induction p as [a| | |X e k IH]; intros w1 w2 Hp Hk HR; try done. destruct Hp as [He Hp]. destruct Hk as [Hl Hk].
    destruct (Hsim X e w1 w2 He Hl HR) as (Ex & Es & Ew). cbn [run].
    destruct (h1 X e w1) as [v1 x1], (h2 X e w2) as [v2 x2]. cbn in Ex, Es, Ew. subst x2. apply IH; [by apply Hp|done|done].
  Qed.
  Context (prof : profile).
  Context (sched : string → option (time → option time)).
  Context (name : string).
  Lemma hist_csim (s : sys W1 M) (z : sys W2 M) es Q :
    conf (M := M) L K (hist_prog prof sched name (own_state s) es) Q → portable lk (hist_prog prof sched name (own_state s) es) →
    R (sw s) (sw z) → same_process s z →
    responses prof sched name h1 s es = responses prof sched name h2 z es ∧
    R (sw (sys_run prof sched name h1 s es)) (sw (sys_run prof sched name h2 z es)) ∧
    same_process (sys_run prof sched name h1 s es) (sys_run prof sched name h2 z es).
  Proof using Hsim.
    intros Hc Hp HR (E1 & E2 & E3 & E4).
    assert (own_state s = own_state z) as E by (unfold own_state; by rewrite E1, E2, E3, E4).
    destruct (run_csim _ Q (sw s) (sw z) Hc Hp HR) as [G1 G2].
    rewrite (run_hist prof sched name h1 es s), E, (run_hist prof sched name h2 es z) in G1.
    rewrite (run_hist prof sched name h1 es s), E, (run_hist prof sched name h2 es z) in G2. cbn [fst snd] in G1, G2.
    injection G1 as F1 F2 F3 F4 F5. done.
  Qed.
End csim.

Section facts.
  Context {M : Type} `{SM : Serde M} {SO : SerdeOk M}.
  Context (prof : profile).
  Context (sched : string → option (time → option time)).
  Context (name : string).
  Context (K : string → Prop).
  Context (clock : nat → time).
  Notation go := (sys_run prof sched name (redis_h clock)).
  Notation L := (lists_of name).
  Notation vw := (vw L K).
  Notation okv := (okv (M := M) L K).

  (** [z] is the queue alone on the in-memory store. *)
  Definition part (r : rworld) (z : world) : Prop :=
    okv (st z) ∧ ∃ z', seen name z' r ∧ vw (st z) (st z') ∧ reads z = reads z' ∧ log z = log z'.
  Lemma seen_field w r id : seen name w r → held (keys r) id = mem_sget (st w) STORAGE_HASH id.
  Proof.
    intros (r' & (Ho & _) & (_ & Hh & _)). specialize (Hh _ (list_key_storage name)).
    unfold held. rewrite (Ho _ (own_hash name)). destruct (keys r' !! STORAGE_HASH) as [[l|m]|]; [done| |]; by rewrite Hh.
  Qed.
  Lemma seen_log w r : seen name w r → log w = rlog r.
  Proof. intros (r' & (_ & _ & E) & (_ & _ & _ & E')). by rewrite E. Qed.
  Lemma load r : typed name r → seen name (loaded (trimmed name r)) r.
  Proof. intros H. exists (trimmed name r). split; [apply trimmed_own|by apply loaded_rel]. Qed.
  Lemma part_call X (e : eff X) r z :
    within (M := M) L K e → portable_call (list_key name) e → part r z →
    (redis_h clock X e r).2 = (mem_h clock X e z).2 ∧ MultiFacts.sound (M := M) K e (mem_h clock X e z).2 ∧
    part (redis_h clock X e r).1 (mem_h clock X e z).1.
  Proof.
    intros He Hp (Hok & z' & H1 & H2 & H3 & H4).
    assert (mine (M := M) name X e) as Hm.
    { split; [|done]. destruct e; cbn in He |- *; try done.
      all: try (by destruct He). all: destruct He as (-> & _ & _); (split; [done|]; split; [done|]); by intros js j _ _. }
    destruct (seen_call (M := M) name clock X e z' r Hm H1) as [E1 E2].
    destruct z as [s rd lg], z' as [s' rd' lg']. cbn in Hok, H2, H3, H4. subst rd' lg'.
    destruct (eff_same (M := M) L K clock e s s' rd lg He Hok H2) as (F1 & F2 & F3 & F4 & F5 & F6).
    split; [by rewrite F1|]. split; [done|]. split; [done|]. eexists. split; [exact E2|]. done.
  Qed.
  Lemma part_other r z ks :
    part r z → (∀ s, ks !! format_queue_name name s = keys r !! format_queue_name name s) →
    (∀ id, K id → held ks id = held (keys r) id) → (∀ l, ks !! STORAGE_HASH ≠ Some (RList l)) →
    part (RWorld ks (rreads r) (rlog r)) z.
  Proof.
    intros (Hok & z' & H1 & [V1 V2] & H3 & H4) A1 A2 A3. split; [done|].
    assert (typed name (RWorld ks (rreads r) (rlog r))) as Ht.
    { split; [|done]. intros s m. cbn [keys]. rewrite A1. by apply (proj1 (seen_typed name _ _ H1)). }
    exists (loaded (trimmed name (RWorld ks (rreads r) (rlog r)))). pose proof (load _ Ht) as Hs. split; [done|].
    split; [split|].
    - intros q Hq. rewrite V1 by done. destruct Hq as [s ->].
      pose proof (seen_list name _ _ s Hs) as E1. pose proof (seen_list name _ _ s H1) as E2. unfold qlist in E1, E2.
      unfold items. transitivity (r_list name r s); [by rewrite E2; destruct (queues (st z') !! _)|].
      transitivity (r_list name (RWorld ks (rreads r) (rlog r)) s); [|by rewrite E1; destruct (queues _ !! _)].
      unfold r_list. cbn [keys]. by rewrite A1.
    - intros id Hid. rewrite V2 by done. rewrite <-(seen_field _ _ id H1), <-(seen_field _ _ id Hs). cbn [keys]. by rewrite A2.
    - rewrite H3, H4, (seen_reads name _ _ H1), (seen_log _ _ H1). done.
  Qed.
  Lemma part_same r r' z : part r z → part r' z → same_part name K r r'.
  Proof.
    intros (_ & z1 & A1 & [A2 A2'] & A3 & A4) (_ & z2 & B1 & [B2 B2'] & B3 & B4). split; [|split; [|split]].
    - intros s. rewrite (seen_list name _ _ s A1), (seen_list name _ _ s B1). unfold qlist.
      specialize (A2 _ (lists_ok name s)). specialize (B2 _ (lists_ok name s)). unfold items in A2, B2.
      destruct (queues (st z1) !! _), (queues (st z2) !! _); cbn in *; congruence.
    - intros id Hid. rewrite (seen_field _ _ id A1), (seen_field _ _ id B1), <-A2', <-B2' by done. done.
    - rewrite <-(seen_reads name _ _ A1), <-(seen_reads name _ _ B1). congruence.
    - rewrite <-(seen_log _ _ A1), <-(seen_log _ _ B1). congruence.
  Qed.
  Lemma part_load (s : sys rworld M) : typed name (sw s) → keeps_to name K s → part (sw s) (loaded (trimmed name (sw s))).
  Proof.
    intros Ht (H1 & H2 & _). pose proof (load _ Ht) as Hs. split.
    - split.
      + intros q [x ->]. apply list.Forall_forall. intros id Hid. apply (H1 x). rewrite (seen_list name _ _ x Hs).
        unfold qlist. unfold items in Hid. by destruct (queues _ !! _).
      + intros id v Hid E js j -> Hd. apply (H2 id js j Hid); [|done]. by rewrite (seen_field _ _ id Hs).
    - eexists. split; [exact Hs|]. done.
  Qed.
  Lemma hist_conf (s : sys rworld M) es : keeps_to name K s → Forall (names_only K) es →
    conf (M := M) L K (hist_prog prof sched name (own_state s) es) (λ _, True).
  Proof.
    intros (_ & _ & H) He. apply conf_hist; [|done]. apply list.Forall_forall. intros t Ht. by apply H.
  Qed.
  Lemma noisy_call noise X (e : eff X) w z :
    fair_share name K noise → within (M := M) L K e → portable_call (list_key name) e → part w.1 z →
    (noisy_h clock noise X e w).2 = (mem_h clock X e z).2 ∧ MultiFacts.sound (M := M) K e (mem_h clock X e z).2 ∧
    part (noisy_h clock noise X e w).1.1 (mem_h clock X e z).1.
  Proof.
    intros Hn He Hp HR. destruct w as [r n]. unfold noisy_h. cbn [fst snd] in *.
    destruct (Hn n (keys r)) as (A1 & A2 & A3). pose proof HR as (_ & z' & Hs & _).
    pose proof (part_other r z (noise n (keys r)) HR A1 A2 (A3 (proj2 (seen_typed name _ _ Hs)))) as HR'.
    destruct (part_call X e _ z He Hp HR') as (E1 & E2 & E3). destruct (redis_h clock X e _) as [r' x]. done.
  Qed.
  Lemma noise_same noise (s : sys (rworld * nat) M) (s' : sys rworld M) es :
    fair_share name K noise → typed name (sw s') → keeps_to name K s' → Forall (names_only K) es →
    typed name (sw s).1 → same_part name K (sw s).1 (sw s') → same_process s s' →
    let t := sys_run prof sched name (noisy_h clock noise) s es in
    responses prof sched name (noisy_h clock noise) s es = responses prof sched name (redis_h clock) s' es ∧
    same_part name K (sw t).1 (sw (go s' es)) ∧ same_process t (go s' es).
  Proof.
    intros Hn Ht Hk He Ht1 (V1 & V2 & V3 & V4) Hp.
    pose (z := Sys (loaded (trimmed name (sw s'))) (cfg s') (tasks s') (alive s') (runs s')).
    pose proof (part_load s' Ht Hk) as HR'.
    assert (part (sw s).1 (sw z)) as HR.
    { pose proof (load _ Ht1) as Hs. pose proof (load _ Ht) as Hs'. destruct HR' as (Hok & _). split; [exact Hok|].
      exists (loaded (trimmed name (sw s).1)). split; [exact Hs|]. split; [split|].
      - intros q [x ->]. pose proof (seen_list name _ _ x Hs) as E1. pose proof (seen_list name _ _ x Hs') as E2.
        specialize (V1 x). rewrite E1, E2 in V1. unfold items, qlist in *. cbn [sw z].
        destruct (queues _ !! _), (queues _ !! _); cbn in *; congruence.
      - intros id Hid. cbn [sw z]. rewrite <-(seen_field _ _ id Hs'), <-(seen_field _ _ id Hs). symmetry. by apply V2.
      - cbn. done. }
    assert (same_process s' z) as Hp' by done.
    assert (same_process s z) as Hp1 by exact Hp.
    assert (own_state s = own_state s') as Eo by (destruct Hp as (E1 & E2 & E3 & E4); unfold own_state; by rewrite E1, E2, E3, E4).
    destruct (hist_csim (M := M) (noisy_h clock noise) (mem_h clock) (λ w z, part w.1 z) L K (list_key name)
      (λ X e w z, noisy_call noise X e w z Hn) prof sched name s z es (λ _, True)) as (A1 & A2 & A3).
    { rewrite Eo. by apply hist_conf. }
    { apply port_hist. }
    { exact HR. }
    { exact Hp1. }
    destruct (hist_csim (M := M) (redis_h clock) (mem_h clock) part L K (list_key name)
      part_call prof sched name s' z es (λ _, True)) as (B1 & B2 & B3).
    { by apply hist_conf. }
    { apply port_hist. }
    { exact HR'. }
    { exact Hp'. }
    cbv zeta. split; [by rewrite A1, B1|]. split; [by eapply part_same|].
    destruct A3 as (C1 & C2 & C3 & C4), B3 as (D1 & D2 & D3 & D4). unfold same_process. rewrite C1, C2, C3, C4. done.
  Qed.
  (** What the queue writes itself. *)
  Lemma move_other n k f t fd td p : p ≠ f → p ≠ t → (r_lmove k f t n fd td).1 !! p = k !! p.
  Proof.
    intros Hf Ht. revert k. induction n as [|n IH]; intros k; [done|]. cbn [r_lmove].
    assert ((r_lmove1 k f t fd td).1 !! p = k !! p) as E.
    { unfold r_lmove1. destruct (rlist k f) as [l|]; [|done]. destruct (pop fd l) as [[x l']|]; [|done].
      destruct (rlist k t); [|done]. destruct (rlist (rset k f l') t); [|done]. cbn [fst]. by rewrite !rset_lookup_ne. }
    destruct (r_lmove1 k f t fd td) as [k1 [o|e]]; cbn in E; [|done]. specialize (IH k1).
    destruct (r_lmove k1 f t n fd td) as [k3 [o3|e]]; cbn in *; by rewrite IH.
  Qed.
  Lemma held_call X (e : eff X) r id :
    within (M := M) L K e → ¬ K id → held (keys (redis_h clock X e r).1) id = held (keys r) id.
  Proof.
    intros Hw Hid. assert (∀ q, L q → STORAGE_HASH ≠ q) as Hne.
    { intros q [s ->] E. symmetry in E. by apply queue_key_not_storage in E. }
    destruct e as [q x|f t n fd td|q x|q n d|q|h k v|h k| |m]; cbn in Hw |- *; try done.
    - destruct Hw as [Hq _]. unfold r_lpush. destruct (rlist (keys r) q); [|done]. unfold held. cbn [fst keys set_keys].
      rewrite rset_lookup_ne; [done|by apply Hne].
    - destruct Hw as [Hf Ht]. pose proof (move_other n (keys r) f t fd td STORAGE_HASH (Hne _ Hf) (Hne _ Ht)) as E.
      destruct (r_lmove (keys r) f t n fd td) as [k o]. unfold held. cbn in *. by rewrite E.
    - unfold r_lrem. destruct (rlist (keys r) q); [|done]. unfold held. cbn [fst keys set_keys].
      rewrite rset_lookup_ne; [done|by apply Hne].
    - destruct Hw as (-> & Hk & _). assert (k ≠ id) by (by intros ->). unfold r_hset, held.
      destruct (keys r !! STORAGE_HASH) as [[l|m]|] eqn:E; cbn [fst keys set_keys]; rewrite ?lookup_insert, ?E; try done.
      + by rewrite lookup_insert_ne.
      + by rewrite lookup_singleton_ne.
  Qed.
  Lemma others_kept (s : sys rworld M) es id :
    typed name (sw s) → keeps_to name K s → Forall (names_only K) es → ¬ K id →
    held (keys (sw (go s es))) id = held (keys (sw s)) id.
  Proof.
    intros Ht Hk He Hid.
    pose (z := Sys (loaded (trimmed name (sw s))) (cfg s) (tasks s) (alive s) (runs s)).
    pose (R := λ r z, part r z ∧ held (keys r) id = held (keys (sw s)) id).
    assert (R (sw (go s es)) (sw (sys_run prof sched name (mem_h clock) z es))) as [_ G]; [|exact G].
    apply (hist_csim (M := M) (redis_h clock) (mem_h clock) R L K (list_key name)) with (Q := λ _, True).
    - intros X e r z' Hw Hp [H1 H2]. destruct (part_call X e r z' Hw Hp H1) as (E1 & E2 & E3). split; [done|]. split; [done|].
      split; [done|]. rewrite <-H2. by apply held_call.
    - by apply hist_conf.
    - apply port_hist.
    - split; [by apply part_load|done].
    - done.
  Qed.
  Lemma other_lists (s : sys rworld M) es name' x : name' ≠ name → r_list name' (sw (go s es)) x = r_list name' (sw s) x.
  Proof.
    intros Hn. unfold r_list. rewrite (keys_frame prof sched name clock); [done|].
    intros [E|[y E]]; [by apply queue_key_not_storage in E|]. by apply queue_key_inj in E as [? _].
  Qed.
  Lemma hash_stays (s : sys rworld M) es : typed name (sw s) → ∀ l, keys (sw (go s es)) !! STORAGE_HASH ≠ Some (RList l).
  Proof.
    intros Ht. destruct (any_keyspace prof sched name clock s Ht) as (z & _ & H). by destruct (H es) as (_ & [_ ?] & _).
  Qed.
End facts.
