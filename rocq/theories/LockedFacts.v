(** Programs that respect the invariant of LockedCore.v, whatever the other processes do. *)
From Verif Require Import Spec SpecRace SpecLocked BackendFacts WorldFacts LifeFacts RaceFacts RaceList LockedCore.

Section safe.
  Context {M : Type} `{SM : Serde M}.
  Context (name : string).
  Context (clock : nat → time).
  Context (lim : option nat) (ex : bool).
  Notation qname := (format_queue_name name).
  Notation qlist := (qlist name).
  Notation h := (mem_h clock).
  Notation core := (core lim ex).

  Definition kd (w : world) : Prop := ∀ key v, mem_sget (st w) STORAGE_HASH key = Some v → keyed (M := M) key v.
  Definition inv (K : list string) (w : world) (gs : list ghost) : Prop :=
    core K (qlist w Queued) (qlist w Running) gs ∧ kd w.
  Definition can_fail {X : Set} (e : eff X) : Prop := ex = false ∧ (lim = None ∨ is_count e = false).

  (** Process i may do [e] and reach [P], holding [g] before; [Kp] holds of what it holds meanwhile. *)
  Context (i : nat) (Kp : ghost → Prop).
  Definition step_ok {X : Set} (e : eff X) (g : ghost) (P : X → ghost → Prop) : Prop :=
    ∀ K w gs, inv K w gs → gs !! i = Some g →
      (∃ g', Kp g' ∧ inv K (h X e w).1 (<[i := g']> gs) ∧ P (h X e w).2 g') ∧
      match fail_ans e with
      | Some bad => can_fail e →
          (∃ g', Kp g' ∧ inv K w (<[i := g']> gs) ∧ P bad g') ∧
          (∃ g', Kp g' ∧ inv K (h X e w).1 (<[i := g']> gs) ∧ P bad g')
      | None => True
      end.
  Fixpoint safe {A} (p : prog A) (g : ghost) (P : A → ghost → Prop) : Prop :=
    match p with
    | Ret a => P a g
    | Panic | Diverge => True
    | Eff e k => step_ok e g (λ x g', safe (k x) g' P)
    end.
  Lemma step_mono {X : Set} (e : eff X) g (P P' : X → ghost → Prop) :
    (∀ x g', P x g' → P' x g') → step_ok e g P → step_ok e g P'.
  Proof.
    intros HP H K w gs Hi Hg. destruct (H K w gs Hi Hg) as [(g1 & A1 & A2 & A3) H2]. split; [exists g1; auto|].
    destruct (fail_ans e); [|done]. intros Hc. destruct (H2 Hc) as [(g2 & B1 & B2 & B3) (g3 & C1 & C2 & C3)].
    split; [exists g2; auto|exists g3; auto].
  Qed.
  Lemma safe_mono {A} (p : prog A) g (P P' : A → ghost → Prop) :
    (∀ a g', P a g' → P' a g') → safe p g P → safe p g P'.
  Proof.
    intros HP. revert g. induction p as [a| | |X e k IH]; intros g; cbn; auto.
    apply step_mono. intros x g'. apply IH.
  Qed.
  Lemma safe_bind {A B} (p : prog A) (f : A → prog B) g (P : B → ghost → Prop) :
    safe p g (λ a g', safe (f a) g' P) → safe (bind p f) g P.
  Proof.
    revert g. induction p as [a| | |X e k IH]; intros g; cbn; auto. apply step_mono. intros x g'. apply IH.
  Qed.
  Lemma safe_then {A B} (p : prog A) (f : A → prog B) g (P : A → ghost → Prop) (Q : B → ghost → Prop) :
    safe p g P → (∀ a g', P a g' → safe (f a) g' Q) → safe (bind p f) g Q.
  Proof. intros H1 H2. apply safe_bind. by eapply safe_mono. Qed.
  Lemma safe_do {X : Set} (e : eff X) g (P : X → ghost → Prop) : step_ok e g P → safe (do e) g P.
  Proof. done. Qed.

  (** *** Calls that leave both lists alone *)
  Definition nwithin {X : Set} (e : eff X) : Prop :=
    match e with
    | QPush l _ => l ≠ qname Queued ∧ l ≠ qname Running
    | QMove _ _ _ _ _ | QRemove _ _ => False
    | SUpsert hash key v => hash = STORAGE_HASH → keyed (M := M) key v
    | _ => True
    end.
  Definition ok_if {A} (r : result A) : Prop := match r with Ok _ => True | Err _ => ex = false end.
  Definition nsound {X : Set} (e : eff X) : X → Prop :=
    match e in eff X return X → Prop with
    | SGet hash key => λ r, match r with Ok (Some v) => hash = STORAGE_HASH → keyed (M := M) key v | _ => True end
    | SUpsert _ _ _ => ok_if
    | QCount _ => ok_if
    | _ => λ _, True
    end.
  Fixpoint nt {A} (p : prog A) (Q : A → Prop) : Prop :=
    match p with
    | Ret a => Q a
    | Panic | Diverge => True
    | Eff e f => nwithin e ∧ ∀ x, nsound e x → nt (f x) Q
    end.
  Lemma nt_mono {A} (p : prog A) (Q Q' : A → Prop) : (∀ a, Q a → Q' a) → nt p Q → nt p Q'.
  Proof. intros H. induction p as [a| | |X e f IH]; cbn; auto. intros [H1 H2]. split; auto. Qed.
  Lemma nt_then {A B} (p : prog A) (f : A → prog B) (P : A → Prop) (Q : B → Prop) :
    nt p P → (∀ a, P a → nt (f a) Q) → nt (bind p f) Q.
  Proof.
    intros H1 H2. induction p as [a| | |X e g IH]; cbn in *; auto. destruct H1 as [A1 A2]. split; auto.
  Qed.

  Lemma ql_other w l x s :
    l ≠ qname s → ql (mem_push (st w) l x) (qname s) = ql (st w) (qname s).
  Proof.
    intros H. rewrite mem_push_ql. unfold upd. destruct (String.eqb_spec (qname s) l) as [E|]; [|done]. by rewrite E in H.
  Qed.
  Lemma n_effect K {X : Set} (e : eff X) w gs :
    inv K w gs → nwithin e → inv K (h X e w).1 gs ∧ nsound e (h X e w).2.
  Proof.
    intros [Hc Hk] Hw. unfold inv in *. rewrite !qlist_ql in *.
    destruct e as [l x|l l' n d d'|l x|l n d|l|hs key v|hs key| |m]; try done;
      cbn -[mem_push mem_upsert mem_sget mem_get] in *.
    - destruct Hw as [H1 H2]. split; [|done]. rewrite !ql_other by done. split; [done|].
      unfold kd, mem_sget. cbn [st set_st]. by rewrite mem_push_storages.
    - split; [|done]. unfold ql. cbn [st set_st]. rewrite !mem_upsert_queues. split; [done|].
      intros k' v'. cbn [st set_st]. rewrite mem_upsert_sget.
      destruct (String.eqb_spec STORAGE_HASH hs) as [E|]; cbn [andb]; [|apply Hk].
      destruct (String.eqb_spec k' key) as [->|]; cbn [andb]; [|apply Hk]. intros [= <-]. by apply Hw.
    - split; [done|]. destruct (mem_sget (st w) hs key) as [v|] eqn:E; [|done]. intros ->. by apply Hk in E.
  Qed.
  Lemma bad_sound {X : Set} (e : eff X) bad : ex = false → fail_ans e = Some bad → nsound e bad.
  Proof. destruct e; cbn; intros Hx E; try done; by injection E as <-. Qed.

  Lemma nt_step {X : Set} (e : eff X) g (P : X → ghost → Prop) :
    Kp g → nwithin e → (∀ x, nsound e x → P x g) → step_ok e g P.
  Proof.
    intros HK Hw HP K w gs Hi Hg. destruct (n_effect K e w gs Hi Hw) as [H1 H2].
    split; [exists g; rewrite list_insert_id by done; auto|].
    destruct (fail_ans e) as [bad|] eqn:E; [|done]. intros [Hx _]. pose proof (bad_sound e bad Hx E).
    split; exists g; rewrite list_insert_id by done; auto.
  Qed.
  Lemma nt_safe {A} (p : prog A) g (P : A → ghost → Prop) :
    Kp g → nt p (λ a, P a g) → safe p g P.
  Proof.
    intros HK. induction p as [a| | |X e k IH]; cbn; auto. intros [Hw Hn]. apply nt_step; auto.
  Qed.

  (** *** The other calls *)
  Lemma inv_core K w w' gs gs' :
    inv K w gs → (∀ k, mem_sget (st w') STORAGE_HASH k = mem_sget (st w) STORAGE_HASH k) →
    core K (qlist w' Queued) (qlist w' Running) gs' → inv K w' gs'.
  Proof. intros [_ Hk] He Hc. split; [done|]. intros k v. rewrite He. apply Hk. Qed.
  Lemma sget_push w s id k : mem_sget (st (w_push name w s id)) STORAGE_HASH k = mem_sget (st w) STORAGE_HASH k.
  Proof. unfold mem_sget. cbn. by rewrite mem_push_storages. Qed.
  Lemma sget_rem w s id k : mem_sget (st (w_rem name w s id)) STORAGE_HASH k = mem_sget (st w) STORAGE_HASH k.
  Proof. unfold mem_sget. cbn. by rewrite mem_remove_storages. Qed.
  Lemma sget_move w s s' k : mem_sget (st (w_move name w s s')) STORAGE_HASH k = mem_sget (st w) STORAGE_HASH k.
  Proof. unfold mem_sget. cbn. by rewrite mem_move_storages. Qed.

  (** From what holds after the call and what if nothing happened. *)
  Lemma step_intro {X : Set} (e : eff X) g g' (P : X → ghost → Prop) :
    Kp g → Kp g' →
    (∀ K w gs, inv K w gs → gs !! i = Some g → inv K (h X e w).1 (<[i := g']> gs) ∧ P (h X e w).2 g') →
    (ex = false → ∀ bad, fail_ans e = Some bad → P bad g ∧ P bad g') → step_ok e g P.
  Proof.
    intros Hg Hg' H1 H2 K w gs Hi Hl. destruct (H1 K w gs Hi Hl) as [A1 A2]. split; [by exists g'|].
    destruct (fail_ans e) as [bad|]; [|done]. intros [Hx _]. destruct (H2 Hx bad eq_refl) as [B1 B2].
    split; [exists g; by rewrite list_insert_id|by exists g'].
  Qed.
  Lemma push_step g id o (P : result unit → ghost → Prop) :
    let g' := G (g_run g) o (g_mode g) in
    Kp g → Kp g' → g_out g = id :: o → g_mode g = Idle →
    P (Ok tt) g' → (ex = false → P (Err ERedis) g ∧ P (Err ERedis) g') → step_ok (QPush (qname Queued) id) g P.
  Proof.
    cbv zeta. intros Hg Hg' Ho Hm H1 H2. apply (step_intro _ g _ P Hg Hg'); [|by intros Hx bad [= <-]; auto].
    intros K w gs Hi Hl. split; [|done]. change (h _ (QPush (qname Queued) id) w).1 with (w_push name w Queued id).
    eapply inv_core; [done|intros; apply sget_push|]. rewrite !qlist_push. cbn [bool_decide decide_rel].
    rewrite bool_decide_true, bool_decide_false by done. destruct Hi as [Hc _]. by apply core_push.
  Qed.
  (** The end of an execution of [id]; [l] are the other ids that the process executes. *)
  Definition holds (id : string) (l : list string) (g : ghost) : Prop :=
    g_mode g = Idle ∧ ((g_run g ≡ₚ id :: l ∧ g_out g = []) ∨ g = G l [id] Idle).
  Lemma rem_step g id l (P : result unit → ghost → Prop) :
    Kp g → Kp (G l [id] Idle) → holds id l g →
    P (Ok tt) (G l [id] Idle) → (ex = false → P (Err ERedis) g ∧ P (Err ERedis) (G l [id] Idle)) →
    step_ok (QRemove (qname Running) id) g P.
  Proof.
    intros Hg Hg' [Hm Hh] H1 H2. apply (step_intro _ g _ P Hg Hg'); [|by intros Hx bad [= <-]; auto].
    intros K w gs Hi Hl. split; [|done]. change (h _ (QRemove (qname Running) id) w).1 with (w_rem name w Running id).
    eapply inv_core; [done|intros; apply sget_rem|]. rewrite !qlist_rem.
    rewrite bool_decide_false, bool_decide_true by done. destruct Hi as [Hc _].
    destruct Hh as [[Hr Ho]| ->].
    - eapply core_rem; eauto.
    - eapply core_upd; try done; cbn [g_run g_out g_mode].
      + intros x. rewrite cnt_remove. destruct (bool_decide_reflect (x = id)) as [->|]; lia.
      + intros x. rewrite cnt_remove. destruct (bool_decide_reflect (x = id)) as [->|]; [|lia].
        pose proof (c_once _ _ _ _ _ _ Hc id). pose proof (tot_ge g_out id gs i _ Hl) as Hge.
        cbn [g_out] in Hge. rewrite cnt_cons, bool_decide_true in Hge by done. lia.
      + intros _ x. rewrite cnt_remove. destruct (bool_decide_reflect (x = id)) as [->|]; lia.
      + intros _. split; [eauto|]. apply filter_length.
      + eapply le_lim_le; [apply filter_length|]. by apply c_lim in Hc.
  Qed.
  Lemma cancel_step g id (P : result unit → ghost → Prop) :
    Kp g → g_mode g = Cancels → (∀ x, P x g) → step_ok (QRemove (qname Queued) id) g P.
  Proof.
    intros Hg Hm HP. apply (step_intro _ g g P Hg Hg); [|by intros Hx bad [= <-]; auto].
    intros K w gs Hi Hl. split; [|done]. change (h _ (QRemove (qname Queued) id) w).1 with (w_rem name w Queued id).
    eapply inv_core; [done|intros; apply sget_rem|]. rewrite !qlist_rem.
    rewrite bool_decide_true, bool_decide_false by done. destruct Hi as [Hc _]. by eapply core_cancel.
  Qed.
  Lemma rotate_step g id l n (P : result (list string) → ghost → Prop) :
    let g' := G (g_run g) (g_out g) (Picks l n) in
    Kp g → Kp g' → g_mode g = Picks (id :: l) n →
    (∀ x, P (Ok x) g') → (ex = false → P (Err ERedis) g ∧ P (Err ERedis) g') →
    step_ok (QMove (qname Queued) (qname Queued) 1 Back Front) g P.
  Proof.
    cbv zeta. intros Hg Hg' Hm H1 H2. apply (step_intro _ g _ P Hg Hg'); [|by intros Hx bad [= <-]; auto].
    intros K w gs Hi Hl.
    assert (h _ (QMove (qname Queued) (qname Queued) 1 Back Front) w =
      (w_move name w Queued Queued, Ok (mem_move (st w) (qname Queued) (qname Queued) 1 Back Front).2)) as ->.
    { cbn -[mem_move]. unfold w_move. by destruct (mem_move _ _ _ _ _ _). }
    split; [|apply H1]. cbn [fst]. eapply inv_core; [done|intros; apply sget_move|]. destruct Hi as [Hc _].
    destruct (core_rotate _ _ _ _ _ _ _ _ _ _ _ Hc Hl Hm) as (pre & Hq & Hc').
    rewrite !(qlist_rotate name w pre id) by done. by rewrite bool_decide_true, bool_decide_false by done.
  Qed.
  Lemma pick_step g id l n (P : result (list string) → ghost → Prop) :
    let g' := G (id :: g_run g) (g_out g) (Picks l n) in
    Kp g → Kp g' → g_mode g = Picks (id :: l) (S n) →
    (∀ x, P (Ok x) g') → (ex = false → P (Err ERedis) g ∧ P (Err ERedis) g') →
    step_ok (QMove (qname Queued) (qname Running) 1 Back Front) g P.
  Proof.
    cbv zeta. intros Hg Hg' Hm H1 H2. apply (step_intro _ g _ P Hg Hg'); [|by intros Hx bad [= <-]; auto].
    intros K w gs Hi Hl.
    assert (h _ (QMove (qname Queued) (qname Running) 1 Back Front) w =
      (w_move name w Queued Running, Ok (mem_move (st w) (qname Queued) (qname Running) 1 Back Front).2)) as ->.
    { cbn -[mem_move]. unfold w_move. by destruct (mem_move _ _ _ _ _ _). }
    split; [|apply H1]. cbn [fst]. eapply inv_core; [done|intros; apply sget_move|]. destruct Hi as [Hc _].
    destruct (core_pick _ _ _ _ _ _ _ _ _ _ _ Hc Hl Hm) as (pre & Hq & Hc').
    by rewrite !(qlist_pick name w pre id) by done.
  Qed.
  Lemma batch_step g l n m (P : result (list string) → ghost → Prop) :
    Kp g → (∀ l', Kp (G (g_run g) (g_out g) (Picks l' n))) → g_mode g = Picks l n →
    (∀ l', P (Ok l') (G (g_run g) (g_out g) (Picks l' n))) → (ex = false → P (Err ERedis) g) →
    step_ok (QGet (qname Queued) m Back) g P.
  Proof.
    intros Hg Hg' Hm H1 H2 K w gs Hi Hl. cbn -[mem_get]. rewrite mem_get_spec. cbn [from_end].
    split; [|intros [Hx _]; split; exists g; rewrite list_insert_id; auto].
    eexists. split; [apply (Hg' (take m (rev (qlist w Queued))))|]. split; [|apply H1].
    destruct Hi as [Hc Hk]. split; [|done]. by eapply core_batch.
  Qed.
  Lemma count_step g l n m (P : result nat → ghost → Prop) :
    (∀ n', Kp (G (g_run g) (g_out g) (Picks [] n'))) → g_mode g = Picks l n → le_lim lim m →
    (∀ c, P (Ok c) (G (g_run g) (g_out g) (Picks [] (m - c)))) →
    (ex = false → P (Err ERedis) (G (g_run g) (g_out g) (Picks [] m))) → step_ok (QCount (qname Running)) g P.
  Proof.
    intros Hg Hm Hl H1 H2 K w gs Hi Hgs. cbn -[mem_count]. rewrite mem_count_spec.
    change (ql (st w) (qname Running)) with (qlist w Running). destruct Hi as [Hc Hk]. split.
    - eexists. split; [apply Hg|]. split; [|apply H1]. split; [|done]. eapply core_room; [done|done|done|].
      apply c_lim in Hc. revert Hl Hc. unfold le_lim. destruct lim; [lia|done].
    - intros [Hx [E|E]]; [|done]. assert (core K (qlist w Queued) (qlist w Running)
        (<[i := G (g_run g) (g_out g) (Picks [] m)]> gs)) as Hc'.
      { eapply core_room; [done|done|done|]. unfold le_lim. by rewrite E. }
      split; eexists; (split; [apply Hg|]; split; [by split|exact (H2 Hx)]).
  Qed.
End safe.

(** *** The programs of Queue.v *)
Section progs.
  Context {M : Type} `{SM : Serde M}.
  Context (prof : profile).
  Context (sched : string → option (time → option time)).
  Context (name : string).
  Context (clock : nat → time).
  Context (lim : option nat) (ex : bool).
  Context (i : nat).
  Notation qname := (format_queue_name name).
  Notation safe := (safe (M := M) name clock lim ex i).
  Notation nt := (nt (M := M) name ex).
  Implicit Types j : job M.
  Definition sub (l l' : list string) : Prop := ∀ id, (cnt id l <= cnt id l')%nat.

  Lemma nt_get id : nt (get_from_storage id) (λ r, ∃ o, r = Ok o ∧ ∀ j, o = Some j → jid j = id).
  Proof.
    split; [done|]. intros x Hx. cbn. eexists. split; [done|]. intros j.
    destruct x as [[[js|]|]|]; try done. intros E. by apply (Hx eq_refl js j).
  Qed.
  Lemma nt_save j : nt (save_and_notify j) (λ r, r = Ok j ∨ ex = false ∧ ∃ e, r = Err e).
  Proof.
    split; [intros _; apply keyed_enc|]. intros [u|e] He; [|right; eauto]. split; [done|]. intros x _. by left.
  Qed.
  Lemma nt_timed (f : Z → job M) :
    nt (let! t := get_now_as_ms in save_and_notify (f t)) (λ r, (∃ t, r = Ok (f t)) ∨ ex = false ∧ ∃ e, r = Err e).
  Proof.
    eapply nt_then; [instantiate (1 := λ _, True); by split|]. intros t _.
    eapply nt_mono; [|apply nt_save]. intros r [->|H]; [left; eauto|by right].
  Qed.
  Lemma nt_push s id (Q : result unit → Prop) : s ≠ Queued → s ≠ Running → (∀ r, Q r) → nt (do (QPush (qname s) id)) Q.
  Proof.
    intros H1 H2 HQ. split; [|intros; apply HQ].
    split; intros E; by apply queue_key_inj in E as [_ ?].
  Qed.
  Lemma nt_next j : nt (next_tick prof sched j) (λ o, ∀ nj, o = Some nj → jid nj = jid j ∧ jstatus (ctx nj) = jstatus (ctx j)).
  Proof.
    split; [done|]. intros now _. cbn [bind].
    destruct (jtype (ctx j)) as [|a|e n r cc]; try by cbn. destruct (sched e) as [after|]; [|by cbn].
    split; [done|]. intros now2 _. fold @bind. cbn [bind].
    assert (∀ (b : bool) (j' : job M), jid j' = jid j ∧ jstatus (ctx j') = jstatus (ctx j) →
      nt (if match max_repeat cc with Some m => m <? r | None => false end then Ret None
          else if b then Ret None else Ret (Some j'))
        (λ o, ∀ nj, o = Some nj → jid nj = jid j ∧ jstatus (ctx nj) = jstatus (ctx j))) as Hb.
    { intros b j' Hj. destruct (match max_repeat cc with Some m => m <? r | None => false end); [done|].
      destruct b; [done|]. cbn. by intros nj [= <-]. }
    destruct (after now2); [destruct (i32_norm prof (r + 1)); [|done]|]; apply Hb; done.
  Qed.

  (** The end of an execution. *)
  Section tail.
    Context (Kp : ghost → Prop) (id : string) (l : list string).
    Context (HK : ∀ g, holds id l g → Kp g).
    Definition given (g : ghost) : Prop := sub l (g_run g) ∧ (ex = true → sub (g_run g) l).
    (** Without errors, the id is out. *)
    Definition over (g : ghost) : Prop := holds id l g ∧ (ex = true → g_run g = l).
    Lemma holds_sub g : holds id l g → sub l (g_run g).
    Proof. intros [_ [[H _]| ->]] x; [|done]. rewrite (cnt_perm _ _ _ H), cnt_cons. lia. Qed.
    Lemma over_given g : over g → given g.
    Proof. intros [H Hx]. split; [by apply holds_sub|]. intros E. rewrite (Hx E). by intros x. Qed.
    Lemma over_bad g : ex = false → holds id l g → over g.
    Proof. intros E H. split; [done|]. by rewrite E. Qed.
    Lemma holds_out : holds id l (G l [id] Idle).
    Proof. split; [done|]. by right. Qed.
    Lemma over_out : over (G l [id] Idle).
    Proof. split; [apply holds_out|done]. Qed.
    Lemma safe_rem g (P : result unit → ghost → Prop) : holds id l g → P (Ok tt) (G l [id] Idle) → (ex = false → ∀ g', holds id l g' → P (Err ERedis) g') →
      safe Kp (do (QRemove (qname Running) id)) g P.
    Proof.
      intros Hg H1 H2. apply safe_do. pose proof holds_out. eapply rem_step; eauto.
    Qed.
    Lemma safe_failed j g : jid j = id → holds id l g → safe Kp (mark_job_is_failed name j) g (λ r g', over g' ∧ ok_if ex r).
    Proof.
      intros Hj Hg. unfold mark_job_is_failed, job_fail. eapply safe_then.
      { apply nt_safe with (P := λ r g', g' = g ∧ ((∃ t, r = Ok (fai j t)) ∨ ex = false ∧ ∃ e, r = Err e)); [by apply HK|].
        eapply nt_mono; [|apply nt_timed]. intros r Hr. split; [done|exact Hr]. }
      intros r ? [-> [[t ->]|[Hx [e ->]]]]; [|by split; [apply over_bad|]].
      unfold push_failed_job, remove_processing_job. change (jid (fai j t)) with (jid j). rewrite Hj.
      assert (∀ g', over g' → safe Kp (let! _ := do (QPush (qname Failed) id) in Ret tt) g' (λ _, over)) as Hp.
      { intros g' Hg'. apply safe_bind. apply nt_safe; [by apply HK; destruct Hg'|]. by apply nt_push. }
      apply (safe_then _ _ _ _ _ _ _ _ _ (λ _, over)); [|by intros a g' Hg'; split].
      apply safe_bind, safe_bind, safe_rem; [done|apply Hp, over_out|]. intros Hx g' Hg'. by apply Hp, over_bad.
    Qed.
    Lemma safe_finished j g : jid j = id → holds id l g →
      safe Kp (mark_job_is_finished name j) g (λ r g', over g' ∧ ok_if ex r).
    Proof.
      intros Hj Hg. unfold mark_job_is_finished, remove_processing_job. rewrite Hj. eapply safe_then.
      { instantiate (1 := λ _ g', over g'). apply safe_bind, safe_rem; [done|apply over_out|intros; by apply over_bad]. }
      intros ? g' Hg'. pose proof Hg' as [Hh _]. eapply safe_then.
      { apply nt_safe with (P := λ r g1, g1 = g' ∧ ((∃ t, r = Ok (fin j t)) ∨ ex = false ∧ ∃ e, r = Err e)); [by apply HK|].
        eapply nt_mono; [|apply nt_timed]. intros r Hr. split; [done|exact Hr]. }
      intros r ? [-> [[t ->]|[Hx [e ->]]]]; [|done].
      apply safe_bind. apply nt_safe; [by apply HK|]. apply nt_push; done.
    Qed.
    Definition ended (r : result unit) (g : ghost) : Prop :=
      match r with Ok _ => given g | Err _ => holds id l g ∧ ex = false end.
    Lemma safe_again j g : jid j = id → jstatus (ctx j) = Running → holds id l g → (∀ g, given g → g_mode g = Idle → Kp g) →
      safe Kp (re_enqueue name j) g ended.
    Proof.
      intros Hj Hs Hg HK'. unfold re_enqueue. rewrite Hs, Hj. apply safe_bind, safe_rem; [done| |done].
      eapply safe_then.
      { apply nt_safe with (P := λ r g1, g1 = G l [id] Idle ∧ ((∃ t, r = Ok (enq j t)) ∨ ex = false ∧ ∃ e, r = Err e)).
        - apply HK, holds_out.
        - eapply nt_mono; [|apply nt_timed]. intros r Hr. split; [done|exact Hr]. }
      intros r ? [-> [[t ->]|[Hx [e ->]]]]; [|split; [apply holds_out|done]].
      change (jid (enq j t)) with (jid j). rewrite Hj. apply safe_bind, safe_do. apply (push_step name clock lim ex i Kp (G l [id] Idle) id []); try done.
      - apply HK, holds_out.
      - apply HK'; [|done]. by split; intros; intros x.
      - by split; intros; intros x.
      - intros Hx. by repeat split; intros; intros x.
    Qed.
    Lemma ok_ended (r : result unit) g : over g → ok_if ex r → ended r g.
    Proof. intros H Hr. destruct r; [by apply over_given|]. by destruct H. Qed.
    Context (HK' : ∀ g, given g → g_mode g = Idle → Kp g).
    Lemma safe_execute_finish j b g : jid j = id → jstatus (ctx j) = Running → holds id l g →
      safe Kp (execute_finish prof sched name j b) g ended.
    Proof.
      intros Hj Hs Hg. unfold execute_finish. eapply safe_then.
      { eapply nt_safe with (P := λ o g', g' = g ∧ _ o); [by apply HK|].
        eapply nt_mono; [|apply nt_next]. intros o Ho. split; [done|exact Ho]. }
      intros o ? [-> Ho]. cbv beta in Ho. destruct o as [nj|].
      - destruct (Ho nj eq_refl) as [H1 H2]. apply safe_again; [congruence|congruence|done|done].
      - destruct b; [eapply safe_mono; [|by apply safe_failed]|eapply safe_mono; [|by apply safe_finished]];
          intros r g' [H1 H2]; by apply ok_ended.
    Qed.
    Lemma safe_execute_tail j u g : jid j = id → jstatus (ctx j) = Running → holds id l g →
      safe Kp (execute_tail prof sched name j u) g ended.
    Proof.
      intros Hj Hs Hg. unfold execute_tail. destruct (jretry (ctx j)) as [r|]; [|by apply safe_execute_finish].
      eapply safe_then.
      { eapply nt_safe with (P := λ _ g', g' = g); [by apply HK|]. unfold call_retry_at.
        destruct (ur_retry u) as [b|r' o]; [|done]. destruct (b && should_retry r); [|done].
        split; [done|]. intros now _. fold @bind. cbn [bind]. by destruct (retry_retry_at prof r now) as [[? ?]|]. }
      intros [r' [t|]] ? ->; [by apply safe_again|by apply safe_execute_finish].
    Qed.
    Lemma safe_task_tail orig j u g :
      jid orig = id → jid j = id → jstatus (ctx j) = Running → holds id l g →
      safe Kp (task_tail prof sched name orig j u) g (λ _, given).
    Proof.
      intros Ho Hj Hs Hg. unfold task_tail. eapply safe_then; [by apply safe_execute_tail|].
      intros [u'|e] g' Hg'; [done|]. destruct Hg' as [Hg' _]. eapply safe_then; [by apply safe_failed|].
      intros ? g1 [Hg1 _]. by apply over_given.
    Qed.
  End tail.

  (** Submissions, cancel_job and get_job. *)
  Lemma safe_enqueue (Kp : ghost → Prop) j g : Kp g → Kp (G (g_run g) [] Idle) → g_mode g = Idle → g_out g = [jid j] →
    safe Kp (enqueue name j) g (λ _ g', g_run g' = g_run g).
  Proof.
    intros H1 H2 Hm Ho. unfold enqueue. apply safe_bind, safe_do.
    apply (push_step name clock lim ex i Kp g (jid j) []); rewrite ?Hm; try done.
    apply safe_bind. apply nt_safe; [done|]. eapply nt_mono; [|apply nt_timed]. by intros r [[t ->]|[_ [e ->]]].
  Qed.
  Lemma safe_run (Kp : ghost → Prop) j c g : Kp g → Kp (G (g_run g) [] Idle) → g_mode g = Idle → g_out g = [jid j] →
    safe Kp (run_with_config name j c) g (λ _ g', g_run g' = g_run g).
  Proof.
    intros H1 H2 Hm Ho. unfold run_with_config. eapply safe_then.
    { eapply nt_safe with (P := λ o g', g' = g ∧ _ o); [done|].
      eapply nt_mono; [|apply nt_get]. intros o Hg. split; [done|exact Hg]. }
    intros r ? [-> (o & -> & _)]. destruct o as [j0|]; [|by apply safe_enqueue].
    eapply safe_then.
    { eapply nt_safe with (P := λ _ g', g' = g); [done|]. destruct (_ && _); [|done].
      split; [intros _; apply keyed_enc|done]. }
    intros [u|e] ? ->; [|done]. destruct (_ && _); [|done].
    eapply safe_then; [by apply safe_enqueue|]. by intros [u'|e] g' Hg'.
  Qed.
  Lemma safe_cancel (Kp : ghost → Prop) id g : Kp g → g_mode g = Cancels →
    safe Kp (@cancel_job M SM name id) g (λ _ g', g' = g).
  Proof.
    intros H1 Hm. unfold cancel_job. eapply safe_then.
    { eapply nt_safe with (P := λ o g', g' = g ∧ _ o); [done|].
      eapply nt_mono; [|apply nt_get]. intros o Hg. split; [done|exact Hg]. }
    intros r ? [-> (o & -> & Hj)]. destruct o as [j|]; [|done]. destruct (is_queued j); [|done].
    eapply safe_then.
    { eapply nt_safe with (P := λ _ g', g' = g); [done|].
      eapply nt_mono; [|apply nt_timed]. done. }
    intros [j'|e] ? ->; [|done]. apply safe_bind, safe_do. apply cancel_step; [done|done|]. by intros [?|?].
  Qed.
  Lemma safe_get (Kp : ghost → Prop) id g : Kp g → safe Kp (@get_job M SM id) g (λ _ g', g' = g).
  Proof. intros H. apply nt_safe; [done|]. eapply nt_mono; [|apply nt_get]. done. Qed.

  (** Ticks.  [base] is what the process executed before. *)
  Section pick.
    Context (Kp : ghost → Prop) (base : list string).
    Context (HK : ∀ l o b n, Kp (G (l ++ base) o (Picks b n))).
    Definition picked (js : list (job M)) : list string := rev (map jid js).
    Definition at_pick (total : nat) (ids : list string) (ready : list (job M)) (g : ghost) : Prop :=
      (length ready <= total)%nat ∧ Forall (λ j, jstatus (ctx j) = Running) ready ∧
      ∃ o, g = G (picked ready ++ base) o (Picks ids (total - length ready)).
    Definition picked_ok (total : nat) (r : result (list (job M))) (g : ghost) : Prop :=
      match r with Ok js => ∃ ids, at_pick total ids js g | Err _ => ex = false ∧ ∃ l, g_run g = l ++ base end.
    Lemma at_pick_K total ids ready g : at_pick total ids ready g → Kp g.
    Proof. intros (_ & _ & o & ->). apply HK. Qed.
    Lemma at_pick_run total ids ready g : at_pick total ids ready g → ∃ l, g_run g = l ++ base.
    Proof. intros (_ & _ & o & ->). by eexists. Qed.
    Lemma safe_batch total ids ready g :
      at_pick total ids ready g → safe Kp (pick_batch name total ids ready) g (picked_ok total).
    Proof.
      revert ready g. induction ids as [|id ids IH]; intros ready g Hg; [by exists []|].
      cbn [pick_batch]. cbv zeta.
      assert (∀ g, at_pick total (id :: ids) ready g →
        safe Kp (let? _ := do (QMove (qname Queued) (qname Queued) 1 Back Front) in pick_batch name total ids ready) g
          (picked_ok total)) as Hrot.
      { clear g Hg. intros g Hg. pose proof (at_pick_K _ _ _ _ Hg) as HKg. pose proof Hg as (Hl & Hf & o & Eg).
        apply safe_bind, safe_do. eapply rotate_step; [done| |by rewrite Eg| |].
        - rewrite Eg. apply HK.
        - intros x. apply IH. split; [done|]. split; [done|]. exists o. by rewrite Eg.
        - intros Hx. split; cbn; rewrite Eg; (split; [done|by eexists]). }
      eapply safe_then.
      { eapply nt_safe with (P := λ o g', g' = g ∧ _ o); [by eapply at_pick_K|].
        eapply nt_mono; [|apply nt_get]. intros o Ho. split; [done|exact Ho]. }
      intros r ? [-> (o & -> & Hj)]. destruct o as [j|]; [|by apply Hrot]. specialize (Hj j eq_refl).
      apply safe_bind. apply nt_safe; [by eapply at_pick_K|]. split; [done|]. intros now _. cbn [LockedFacts.nt].
      destruct (is_ready j now && (length ready <? total)%nat && _) eqn:Ec; [|by apply Hrot].
      apply andb_true_iff in Ec as [Ec _]. apply andb_true_iff in Ec as [_ Ec]. apply Nat.ltb_lt in Ec.
      eapply safe_then.
      { eapply nt_safe with (P := λ r g', g' = g ∧ ((∃ t, r = Ok (prc j t)) ∨ ex = false ∧ ∃ e, r = Err e)); [by eapply at_pick_K|].
        eapply nt_mono; [|apply nt_timed]. intros r Hr. split; [done|exact Hr]. }
      intros r ? [-> [[t ->]|[Hx [e ->]]]]; [|split; [done|by eapply at_pick_run]].
      pose proof (at_pick_K _ _ _ _ Hg) as HKg. pose proof Hg as (Hl & Hf & o & Eg).
      assert (∃ n, total - length ready = S n)%nat as [n En]. { exists (total - length ready - 1)%nat. lia. }
      apply safe_bind, safe_do. eapply (pick_step name clock lim ex i Kp g id ids n); [done| |by rewrite Eg, En| |].
      - rewrite Eg. cbn [g_run]. apply (HK (id :: picked ready)).
      - intros x. apply IH. split; [rewrite app_length; cbn; lia|]. split.
        + apply Forall_app. split; [done|]. by repeat constructor.
        + exists o. rewrite Eg. cbn [g_run g_out]. unfold picked. rewrite map_app, rev_app_distr, app_length. cbn.
          f_equal; [by rewrite <-Hj|]. f_equal. lia.
      - intros Hx. split; cbn; rewrite Eg; cbn; (split; [done|]); [by eexists|]. by exists (id :: picked ready).
    Qed.
    Lemma safe_loop fuel total ready cursor g ids :
      at_pick total ids ready g → safe Kp (pick_loop prof name fuel total ready cursor) g (picked_ok total).
    Proof.
      revert ready cursor g ids. induction fuel as [|fuel IH]; intros ready cursor g ids Hg; [done|].
      cbn [pick_loop]. pose proof (at_pick_K _ _ _ _ Hg) as HKg. pose proof Hg as (Hl & Hf & o & Eg).
      apply safe_bind, safe_do. eapply batch_step; [done| |by rewrite Eg| |].
      - intros l'. rewrite Eg. apply HK.
      - intros l'. destruct (i32_norm prof _); [|done]. eapply safe_then.
        { apply safe_batch. split; [done|]. split; [done|]. exists o. by rewrite Eg. }
        intros [ready'|e] g' Hg'; [|done]. destruct Hg' as [ids' Hg'].
        destruct (_ <=? _)%nat; [by exists ids'|]. destruct (_ <=? _); [by exists ids'|]. by eapply IH.
      - intros Hx. cbn. rewrite Eg. split; [done|]. by eexists.
    Qed.
    Lemma safe_pick fuel max g :
      g = G base (g_out g) (Picks [] 0) → le_lim lim max →
      safe Kp (pick_jobs (λ _, prof) (λ _, name) fuel i max) g
        (λ r g', match r with
                 | Ok js => g_run g' ≡ₚ map jid js ++ base ∧ Forall (λ j, jstatus (ctx j) = Running) js
                 | Err _ => ex = false ∧ sub base (g_run g')
                 end).
    Proof.
      intros Eg Hl. unfold pick_jobs. apply safe_bind, safe_do.
      assert (∀ total o ids, safe Kp (try_pick (λ _, prof) (λ _, name) fuel i total) (G base o (Picks ids total))
        (λ r g', match r with
                 | Ok js => g_run g' ≡ₚ map jid js ++ base ∧ Forall (λ j, jstatus (ctx j) = Running) js
                 | Err _ => ex = false ∧ sub base (g_run g')
                 end)) as Ht.
      { intros total o ids. unfold try_pick. apply safe_bind. apply nt_safe; [apply (HK [])|]. split; [done|].
        intros [len|e] He; [|by split; [|intros x]]. cbn [LockedFacts.nt]. eapply safe_mono; [|eapply safe_loop].
        2: { split; [apply Nat.le_0_l|]. split; [done|]. exists o. cbn. by rewrite Nat.sub_0_r. }
        intros [js|e] g'; cbn.
        - intros (ids' & _ & Hf & o' & ->). split; [|done]. cbn [g_run]. unfold picked.
          by rewrite <-Permutation_rev.
        - intros (Hx & l & ->). split; [done|]. intros x. rewrite cnt_app. lia. }
      eapply count_step with (m := max) (l := []) (n := 0%nat); [| |done| |].
      - intros n'. rewrite Eg. apply (HK []).
      - by rewrite Eg.
      - intros c. rewrite Eg. cbn [g_run g_out]. cbv zeta. destruct (Nat.leb_spec max c); [done|]. apply Ht.
      - intros Hx. rewrite Eg. cbn [g_run g_out]. cbv zeta. destruct (Nat.leb_spec max 0); [done|].
        rewrite Nat.sub_0_r. apply Ht.
    Qed.
  End pick.
End progs.
