(** Several job types in one process: what concerns one type is a history of Client.v. *)
From Verif Require Import SpecOffice MultiFacts ClientFacts ClientProgress WorldFacts BackendFacts.

(** *** Programs cut into effects *)
Section exec.
  Context {W : Type} (h : handler W).
  Fixpoint exec {A} (n : nat) (p : prog A) (w : W) : prog A * W :=
    match n, p with
    | S n', Eff e k => let (w', x) := h _ e w in exec n' (k x) w'
    | _, _ => (p, w)
    end.
  Lemma exec_S {A} n (p : prog A) w :
    exec (S n) p w =
    match exec n p w with
    | (Eff e k, w') => let (w'', x) := h _ e w' in (k x, w'')
    | r => r
    end.
  Proof.
    revert p w. induction n as [|n IH]; intros p w.
    - destruct p as [a| | |X e k]; done.
    - destruct p as [a| | |X e k]; try done. cbn [exec]. destruct (h X e w) as [w' x]. rewrite <-IH. done.
  Qed.
  Lemma exec_ret {A} n (p : prog A) w a w' : exec n p w = (Ret a, w') → run h p w = (w', Done a).
  Proof.
    revert p w. induction n as [|n IH]; intros p w; [by intros [= -> ->]|].
    destruct p as [b| | |X e k]; try done; cbn [exec run]; [by intros [= -> ->]|].
    destruct (h X e w) as [w1 x]. apply IH.
  Qed.
  Fixpoint total {A} (p : prog A) : Prop :=
    match p with
    | Ret _ => True
    | Panic | Diverge => False
    | Eff _ k => ∀ x, total (k x)
    end.
  Lemma total_bind {A B} (p : prog A) (g : A → prog B) : total p → (∀ a, total (g a)) → total (bind p g).
  Proof. induction p as [a| | |X e k IH]; cbn; auto. Qed.
  Lemma total_catch {A} (p : prog A) : total (catch p).
  Proof. induction p as [a| | |X e k IH]; cbn; auto. Qed.
  Lemma total_cut {A} n (p : prog A) : total (cut n p).
  Proof. revert p. induction n as [|n IH]; intros [a| | |X e k]; cbn; auto. Qed.
  Lemma total_exec {A} n (p : prog A) w : total p → total (exec n p w).1.
  Proof.
    revert p w. induction n as [|n IH]; intros p w Hp; [done|]. destruct p as [a| | |X e k]; try done.
    cbn [exec]. destruct (h X e w). apply IH, Hp.
  Qed.
  Lemma exec_bind_world {A B} n (p : prog A) (g : outcome A → B) w :
    (exec n (bind (catch p) (λ o, Ret (g o))) w).2 = run_n h n p w.
  Proof.
    revert p w. induction n as [|n IH]; intros p w; [by destruct p|].
    destruct p as [b| | |X e k]; try done; cbn. destruct (h X e w) as [w1 x]. apply IH.
  Qed.
End exec.

Section one.
  Context {M : Type} `{SM : Serde M}.
  Context (prof : profile).
  Context (sched : string → option (time → option time)).
  Context (name : string).
  Context (clock : nat → time).
  Context (K : string → Prop).
  Notation h := (mem_h clock).
  Notation fstep := (fstep prof sched name h).
  Notation step := (sys_step prof sched name h).
  Notation sprog := (step_prog prof sched name).
  Implicit Types (f : front M world) (c : cstate M).

  Definition set_q f x : front M world :=
    Client.Front x (known f) (begun f) (q_box f) (aj_up f) (aj_box f) (cs f) (trace f).
  Definition outside (fe : fevent M) : Prop :=
    match fe with FCall _ | FGo _ | FAj | FAjGone => True | _ => False end.

  Lemma outside_q f fe x :
    outside fe → alive x = alive (q f) → fstep (set_q f x) fe = set_q (fstep f fe) x ∧ q (fstep f fe) = q f.
  Proof.
    intros Ho Hx. destruct fe as [cl|i| | | | |e| |o k]; try done.
    - destruct cl; try done. cbn. by destruct (aj_up f).
    - cbn [Client.fstep set_q cs]. destruct (cs f !! i) as [c|]; [|done]. unfold mailbox_open. cbn [known begun q set_q aj_up].
      rewrite Hx. destruct (c_at c); try done; repeat case_match; done.
    - cbn [Client.fstep set_q cs aj_box known]. destruct (aj_box f) as [|i b]; [done|]. destruct (cs f !! i) as [c|]; [|done].
      destruct (c_at c); try done. by destruct (known f).
  Qed.
  Lemma outside_trace f fe : outside fe → trace (fstep f fe) = trace f ∧ q_box f `prefix_of` q_box (fstep f fe).
  Proof.
    intros Ho. destruct fe as [cl|i| | | | |e| |o k]; try done.
    - destruct cl; try done. cbn. by destruct (aj_up f).
    - cbn [Client.fstep]. destruct (cs f !! i) as [c|]; [|done].
      destruct (c_at c); try done; repeat case_match; try done. cbn. split; [done|]. by apply prefix_app_r.
    - cbn [Client.fstep]. destruct (aj_box f) as [|i b]; [done|]. destruct (cs f !! i) as [c|]; [|done].
      destruct (c_at c); try done. by destruct (known f).
  Qed.
  Lemma caller_box f fe :
    match fe with FCall _ | FGo _ => True | _ => False end →
    aj_box (fstep f fe) = aj_box f ++ drop (length (aj_box f)) (aj_box (fstep f fe)) ∧
    aj_up (fstep f fe) = aj_up f ∧ known (fstep f fe) = known f.
  Proof.
    intros Ho.
    assert (∀ l : list nat, aj_box f ++ l = aj_box f ++ drop (length (aj_box f)) (aj_box f ++ l)) as H.
    { intros l. by rewrite drop_app. }
    assert (aj_box f = aj_box f ++ drop (length (aj_box f)) (aj_box f)) as H0.
    { by rewrite drop_all, app_nil_r. }
    destruct fe as [cl|i| | | | |e| |o k]; try done.
    - destruct cl; try done. cbn. destruct (aj_up f) eqn:E; cbn; rewrite ?E; done.
    - cbn [Client.fstep]. destruct (cs f !! i) as [c|]; [|done].
      destruct (c_at c); try done; repeat case_match; cbn; try done.
  Qed.
  Lemma aj_step_box f i b : aj_box f = i :: b →
    if aj_up (fstep f FAj) then aj_box (fstep f FAj) = b ∧ aj_up f = true
    else aj_up f = true → fstep f FAj = aj_gone f ∧ known f = true ∧ ∃ c, cs f !! i = Some c ∧ c_at c = InitSent.
  Proof.
    intros E. cbn [Client.fstep]. rewrite E. destruct (cs f !! i) as [c|] eqn:Ei; cbn.
    2: { by destruct (aj_up f). }
    destruct (c_at c) eqn:Ec; cbn; try (by destruct (aj_up f)).
    destruct (known f) eqn:Ek; cbn; [|by destruct (aj_up f)]. intros _. split; [done|]. split; [done|]. by exists c.
  Qed.

  (** *** What a queue is doing *)
  Definition startable f (o : option nat) (e : event M) : Prop :=
    match o with
    | Some i => begun f = true ∧ alive (q f) = true ∧ ∃ b c, q_box f = i :: b ∧ cs f !! i = Some c ∧ e = msg_of c
    | None => e = EvStart ∧ known f = true ∧ begun f = false ∨
              begun f = true ∧ alive (q f) = true ∧ own_event e = true
    end.
  Lemma msg_goto c p : msg_of (goto c p) = msg_of c.
  Proof. done. Qed.
  Lemma msg_lose n c : msg_of (lose_aj n c) = msg_of c.
  Proof. unfold lose_aj. by destruct (c_at c), (c_call c). Qed.
  Lemma startable_outside f fe o e :
    good f → boxed f → outside fe → startable f o e → startable (fstep f fe) o e.
  Proof.
    intros (_ & _ & Hw & _) (_ & _ & _ & Hbk) Ho. destruct (outside_q f fe (q f) Ho eq_refl) as [_ Eq].
    destruct (outside_trace f fe Ho) as [_ [l Hb]].
    assert (begun f = true → begun (fstep f fe) = true) as Hbg.
    { intros E. specialize (Hbk E). destruct fe as [cl|i| | | | |e'| |o' k]; try done.
      - destruct cl; try done. cbn. by destruct (aj_up f).
      - cbn [Client.fstep]. destruct (cs f !! i) as [c|]; [|done]. destruct (c_at c); try done; repeat case_match; done.
      - cbn [Client.fstep]. destruct (aj_box f) as [|i b]; [done|]. destruct (cs f !! i) as [c|]; [|done].
        destruct (c_at c); try done. by rewrite Hbk. }
    assert (known f = true → known (fstep f fe) = true ∧ begun (fstep f fe) = begun f) as Hkn.
    { intros E. destruct fe as [cl|i| | | | |e'| |o' k]; try done.
      - destruct cl; try done. cbn. by destruct (aj_up f).
      - cbn [Client.fstep]. destruct (cs f !! i) as [c|]; [|done]. destruct (c_at c); try done; repeat case_match; done.
      - cbn [Client.fstep]. destruct (aj_box f) as [|i b]; [done|]. destruct (cs f !! i) as [c|]; [|done].
        destruct (c_at c); try done. by rewrite E. }
    destruct o as [i|]; cbn.
    - intros (H1 & H2 & b & c & Eb & Ei & Ee). rewrite Eq. split; [by apply Hbg|]. split; [done|].
      exists (b ++ l). rewrite Hb, Eb. cbn [app].
      assert (∃ c', cs (fstep f fe) !! i = Some c' ∧ msg_of c' = msg_of c) as (c' & Ei' & Ec').
      { rewrite Eb in Hw. apply Forall_cons_1 in Hw as [(c0 & Ei0 & Hat) _]. rewrite Ei in Ei0. injection Ei0 as <-.
        destruct fe as [cl|k| | | | |e'| |o' k]; try done.
        - exists c. split; [|done]. destruct cl; cbn; try (by apply lookup_app_l_Some).
          destruct (aj_up f); cbn; by apply lookup_app_l_Some.
        - cbn [Client.fstep]. destruct (decide (k = i)) as [->|Hne].
          + rewrite Ei. destruct Hat as [E|(E & _)]; rewrite E; eauto.
          + exists c. split; [|done]. destruct (cs f !! k) as [ck|] eqn:Ek; [|done].
            destruct (c_at ck); try done; repeat case_match; cbn; by rewrite list_lookup_insert_ne.
        - cbn [Client.fstep]. destruct (aj_box f) as [|k b']; [eauto|]. destruct (cs f !! k) as [ck|] eqn:Ek; [|eauto].
          assert (∀ p, ∃ c', <[k := goto ck p]> (cs f) !! i = Some c' ∧ msg_of c' = msg_of c) as H.
          { intros p. destruct (decide (k = i)) as [->|Hne].
            - rewrite list_lookup_insert by (by eapply lookup_lt_Some). rewrite Ei in Ek. injection Ek as <-. eauto.
            - rewrite list_lookup_insert_ne by done. eauto. }
          destruct (c_at ck); cbn; try (by eauto); try apply H. destruct (known f); cbn; [|apply H].
          rewrite list_lookup_fmap, Ei. cbn. eexists. split; [done|]. apply msg_lose.
        - cbn. rewrite list_lookup_fmap, Ei. cbn. eexists. split; [done|]. apply msg_lose. }
      exists c'. rewrite Ec'. done.
    - rewrite Eq. intros [(-> & H1 & H2)|(H1 & H2 & H3)]; [left|right; auto].
      destruct (Hkn H1) as [-> ->]. done.
  Qed.

  (** *** The ids that are named *)
  Definition call_ok c : Prop := call_ids K (c_call c) ∧ match c_upd c with Some j => K (jid j) | None => True end.
  Definition resp_ok (r : response M) : Prop := match r with RJob (Some j) => K (jid j) | _ => True end.
  Lemma call_ok_goto c p : call_ok c → call_ok (goto c p).
  Proof. done. Qed.
  Lemma call_ok_recv n c r : call_ok c → resp_ok r → call_ok (recv n c r).
  Proof.
    intros [H1 H2] Hr. unfold recv. destruct (c_call c) eqn:Ec, (c_upd c) as [j'|] eqn:Eu; try done;
      try (unfold call_ok; cbn; rewrite ?Ec, ?Eu; done).
    destruct r as [| |[j|]|]; try (unfold call_ok; cbn; rewrite ?Ec, ?Eu; done).
    unfold call_ok. cbn. rewrite ?Ec. split; [done|]. destruct c0 as [cx|]; cbn in *; [by destruct H1|done].
  Qed.
  Lemma resp_ok_dead e : resp_ok (dead_response e).
  Proof. by destruct e. Qed.
  Lemma call_ok_lose n c : call_ok c → call_ok (lose_aj n c).
  Proof. unfold lose_aj. by destruct (c_at c), (c_call c). Qed.
  Lemma names_msg c : call_ok c → names_only K (msg_of c).
  Proof.
    intros [H1 H2]. unfold msg_of. destruct (c_upd c) as [j|]; [done|]. destruct (c_call c); try done. by destruct H1.
  Qed.
  Lemma calls_ok_outside f fe :
    outside fe → match fe with FCall c => call_ids K c | _ => True end →
    Forall call_ok (cs f) → Forall call_ok (cs (fstep f fe)).
  Proof.
    intros Ho Hc Hf.
    assert (∀ i c c', cs f !! i = Some c → (call_ok c → call_ok c') → Forall call_ok (<[i := c']> (cs f))) as Hi.
    { intros i c c' E H. apply Forall_insert; [done|]. apply H. by eapply Forall_lookup_1. }
    destruct fe as [cl|i| | | | |e'| |o' k]; try done.
    - destruct cl; cbn; try (apply Forall_app; split; [done|]; constructor; [split; done|done]).
      destruct (aj_up f); cbn; (apply Forall_app; split; [done|]; constructor; [split; done|done]).
    - cbn [Client.fstep]. destruct (cs f !! i) as [c|] eqn:E; [|done].
      destruct (c_at c); try done; repeat case_match; cbn; try done; eapply Hi; try done;
        intros; try (by apply call_ok_goto); apply call_ok_recv; try done.
      + unfold no_queue. by destruct (c_call c).
      + apply resp_ok_dead.
    - cbn [Client.fstep]. destruct (aj_box f) as [|i b]; [done|]. destruct (cs f !! i) as [c|] eqn:E; [|done].
      destruct (c_at c); try done; cbn; try (by eapply Hi). destruct (known f); cbn; [|by eapply Hi].
      apply Forall_fmap. eapply list.Forall_impl; [exact Hf|]. intros d Hd. by apply call_ok_lose.
    - cbn. apply Forall_fmap. eapply list.Forall_impl; [exact Hf|]. intros d Hd. by apply call_ok_lose.
  Qed.
  Lemma calls_ok_settle f o b e s r :
    resp_ok r → Forall call_ok (cs f) → Forall call_ok (cs (settle f o b e s r)).
  Proof.
    intros Hr Hf. unfold settle. destruct (alive s); cbn.
    - destruct o as [i|]; [|done]. apply Forall_alter; [done|]. intros c Hi Hc.
      destruct (c_at c); try done. by apply call_ok_recv.
    - apply Forall_fmap. eapply list.Forall_impl; [exact Hf|]. intros d Hd. unfold compose, orphaned.
      destruct (c_at d); try done. apply call_ok_recv; [done|]. apply resp_ok_dead.
  Qed.

  Notation conf := (conf (M := M) (lists_of name) K).
  Fixpoint rets {A} (p : prog A) (R : A → Prop) : Prop :=
    match p with
    | Ret a => R a
    | Panic | Diverge => True
    | Eff e k => ∀ x, rets (k x) R
    end.
  Lemma rets_bind {A B} (p : prog A) (g : A → prog B) R : (∀ a, rets (g a) R) → rets (bind p g) R.
  Proof. intros H. induction p as [a| | |X e k IH]; cbn; auto. Qed.
  Lemma conf_rets {A} (p : prog A) (Q R : A → Prop) : conf p Q → rets p R → conf p (λ a, Q a ∧ R a).
  Proof.
    induction p as [a| | |X e k IH]; cbn; auto. intros [H1 H2] H3. split; [done|]. intros x Hx. apply IH; auto.
  Qed.
  Lemma conf_ev_resp (cf : wq_config) ts e :
    Forall (tj K) ts → names_only K e →
    conf (ev_prog prof sched name cf ts e) (λ r, Forall (tj K) r.1.1.2 ∧ resp_ok r.2).
  Proof.
    intros Ht He. destruct e as [j ec|id|id|id|c'| |i u| | |e' n|];
      try (apply conf_rets; [by apply conf_ev_prog|cbn [ev_prog]; first [done | apply rets_bind; by intros]]).
    - cbn [ev_prog]. apply conf_bind. eapply conf_mono; [|by apply conf_get].
      intros [[j|]|e] Hj; (split; [done|]); done.
    - apply conf_rets; [by apply conf_ev_prog|]. cbn [ev_prog]. destruct (ts !! i); [|done].
      apply rets_bind. by intros [[t'|] js].
  Qed.
  Definition done_ok (r : sys unit M * response M) : Prop := Forall (tj K) (tasks r.1) ∧ resp_ok r.2.
  Lemma conf_step_resp s e : Forall (tj K) (tasks s) → names_only K e → conf (sprog s e) done_ok.
  Proof.
    intros Hs He.
    assert (done_ok (Sys tt (cfg s) [] false (runs s), RNone)) as Hd by (split; [constructor|done]).
    assert (conf (commit_prog prof sched name s e) done_ok) as Hc.
    { unfold commit_prog. apply conf_bind. eapply conf_mono; [|by apply conf_catch, conf_ev_resp].
      intros [[[[c ts] js] r]| |] H; first [exact H | exact Hd]. }
    unfold step_prog. destruct (alive s).
    - destruct e as [| | | | | | | | |e' n|]; try exact Hc; try exact Hd; try (by split).
      apply conf_bind. apply (conf_mono _ _ _ MultiFacts.T); [by intros; exact Hd|].
      assert (conf (cut n (ev_prog prof sched name (cfg s) (tasks s) e')) MultiFacts.T) as H.
      { by eapply conf_cut, conf_ev_prog. }
      destruct e'; try exact H. done.
    - destruct e as [| | | | | | | | |e' n|]; try exact Hc; try (split; [done|]; apply resp_ok_dead).
      destruct e'; try (split; [done|]; apply resp_ok_dead). apply conf_bind.
      apply (conf_mono _ _ _ MultiFacts.T); [by intros; exact Hd|]. by eapply conf_cut, conf_ev_prog.
  Qed.

  (** *** A process [f] without other types, and a queue in the middle of a step on a store with more in it *)
  Notation vw := (vw (lists_of name) K).
  Notation okv := (okv (M := M) (lists_of name) K).
  Definition act : Type := option nat * event M * nat * prog (sys unit M * response M).
  Definition now_at f (b : option act) (s : store) (rd : nat) (lg : list msg) : Prop :=
    match b with
    | None => ∃ s', sw (q f) = World s' rd lg ∧ vw s' s
    | Some (o, e, n, p) =>
        startable f o e ∧ conf p done_ok ∧
        ∃ s', exec h n (sprog (own_state (q f)) e) (sw (q f)) = (p, World s' rd lg) ∧ vw s' s
    end.
  Definition rel f (b : option act) (s : store) (rd : nat) (lg : list msg) : Prop :=
    Forall (tj K) (tasks (q f)) ∧ Forall call_ok (cs f) ∧ okv s ∧ now_at f b s rd lg.

  Lemma total_step s e : total (sprog s e).
  Proof.
    unfold step_prog, commit_prog.
    destruct (alive s); destruct e as [| | | | | | | | |e0 n0|]; cbn [total]; try done;
      try (apply total_bind; [|done]; first [apply total_catch | apply total_cut | destruct e0; first [done | apply total_cut]]).
    destruct e0; cbn [total]; try done. apply total_bind; [apply total_cut|done].
  Qed.
  Lemma rel_total f o e n p s rd lg : rel f (Some (o, e, n, p)) s rd lg → total p.
  Proof.
    intros (_ & _ & _ & _ & _ & s' & E & _).
    pose proof (total_exec h n (sprog (own_state (q f)) e) (sw (q f)) (total_step _ _)) as H. by rewrite E in H.
  Qed.
  Lemma rel_frame f b s s' rd lg : rel f b s rd lg → vw s s' → rel f b s' rd lg.
  Proof.
    intros (H1 & H2 & H3 & H4) Hv. split; [done|]. split; [done|]. split; [by eapply okv_vw|].
    destruct b as [[[[o e] n] p]|].
    - destruct H4 as (H4 & H5 & s1 & E & H6). split; [done|]. split; [done|]. exists s1. split; [done|].
      by eapply vw_trans.
    - destruct H4 as (s1 & E & H6). exists s1. split; [done|]. by eapply vw_trans.
  Qed.
  Lemma rel_outside f fe b s rd lg :
    good f → boxed f → outside fe → match fe with FCall c => call_ids K c | _ => True end →
    rel f b s rd lg → rel (fstep f fe) b s rd lg.
  Proof.
    intros Hg Hb Ho Hc (H1 & H2 & H3 & H4). destruct (outside_q f fe (q f) Ho eq_refl) as [_ Eq].
    split; [by rewrite Eq|]. split; [by apply calls_ok_outside|]. split; [done|].
    destruct b as [[[[o e] n] p]|]; cbn; rewrite Eq; [|done].
    destruct H4 as (H4 & H5 & H6). split; [by apply startable_outside|done].
  Qed.
  Lemma rel_begin f o e s rd lg :
    rel f None s rd lg → startable f o e → rel f (Some (o, e, 0%nat, sprog (own_state (q f)) e)) s rd lg.
  Proof.
    intros (H1 & H2 & H3 & s' & E & H4) Hs. split; [done|]. split; [done|]. split; [done|]. split; [done|].
    split; [|exists s'; by rewrite E]. apply conf_step_resp; [done|].
    destruct o as [i|].
    - destruct Hs as (_ & _ & b & c & _ & Ei & ->). apply names_msg. by eapply Forall_lookup_1.
    - destruct Hs as [(-> & _)|(_ & _ & He)]; [done|]. by destruct e.
  Qed.
  Lemma rel_eff f o e n (X : Set) (x : eff X) k s rd lg :
    rel f (Some (o, e, n, Eff x k)) s rd lg →
    let r := h X x (World s rd lg) in
    rel f (Some (o, e, S n, k r.2)) (st r.1) (reads r.1) (log r.1).
  Proof.
    intros (H1 & H2 & H3 & H4 & H5 & s' & E & H6). cbn in H5. destruct H5 as [Hw Hk].
    destruct (eff_same (lists_of name) K clock x s s' rd lg Hw H3) as (E1 & E2 & E3 & E4 & E5 & E6); [by apply vw_sym|].
    cbv zeta. split; [done|]. split; [done|]. split; [done|]. split; [done|]. split; [by apply Hk|].
    rewrite exec_S, E. destruct (h X x (World s' rd lg)) as [[s1 r1 l1] a1]. cbn in *.
    exists s1. subst. split; [done|]. by apply vw_sym.
  Qed.
  Lemma rel_frame_other (L' K' : string → Prop) {M' : Type} {SM' : Serde M'} (clock' : nat → time) (X : Set) (x : eff X) s rd lg :
    (∀ l, lists_of name l → L' l → False) → (∀ k, K k → K' k → False) →
    within (M := M') L' K' x → vw s (st (mem_h clock' X x (World s rd lg)).1).
  Proof. intros HL HK Hw. by apply (eff_frame (SM := SM') (lists_of name) K clock' L' K'). Qed.

  Definition end_event (o : option nat) (e : event M) : fevent M :=
    match o, e with
    | Some _, _ => FHandle
    | None, EvStart => FBegin
    | None, _ => FOwn e
    end.
  Lemma end_not_gone o e : end_event o e ≠ FAjGone.
  Proof. by destruct o, e. Qed.
  Lemma rel_end f o e n x r s rd lg :
    rel f (Some (o, e, n, Ret (x, r))) s rd lg →
    ∃ s', let f' := fstep f (end_event o e) in
      q f' = with_world x (World s' rd lg) ∧ rel f' None s rd lg ∧
      f' = settle f o (match o with Some _ => tail (q_box f) | None => q_box f end) e (q f') r.
  Proof.
    intros (H1 & H2 & H3 & H4 & [H5 H5'] & s' & E & H6). cbn in H5, H5'.
    apply exec_ret in E. rewrite run_step in E. injection E as E1 E2 E3.
    assert ((step (q f) e).1 = with_world x (World s' rd lg)) as Es.
    { rewrite <-E2. unfold with_world, own_state. cbn. rewrite <-E1. by destruct (step (q f) e).1. }
    assert (∀ b, queue_step prof sched name h f o b e = settle f o b e (with_world x (World s' rd lg)) r) as Hq.
    { intros b. unfold queue_step. rewrite <-Es, <-E3. by destruct (step (q f) e). }
    assert (∀ b, q (settle f o b e (with_world x (World s' rd lg)) r) = with_world x (World s' rd lg)) as Hqs.
    { intros b. unfold settle. by destruct (alive _). }
    assert (fstep f (end_event o e) =
      settle f o (match o with Some _ => tail (q_box f) | None => q_box f end) e (with_world x (World s' rd lg)) r) as Hfe.
    { destruct o as [i|]; cbn in H4.
      - destruct H4 as (Hb & Ha & b & c & Eb & Ei & ->). cbn [Client.fstep end_event]. rewrite Eb, Ei, Hb, Ha. cbn. apply Hq.
      - destruct H4 as [(-> & Hk & Hb)|(Hb & Ha & He)].
        + cbn [Client.fstep end_event]. rewrite Hk, Hb. cbn. apply Hq.
        + assert (end_event None e = FOwn e) as -> by (by destruct e).
          cbn [Client.fstep]. rewrite Hb, Ha, He. cbn. apply Hq. }
    exists s'. cbv zeta. rewrite Hfe. split; [apply Hqs|]. rewrite Hqs. split; [|done].
    split; [by rewrite Hqs|]. split; [by apply calls_ok_settle|]. split; [done|]. cbn. rewrite Hqs. by exists s'.
  Qed.

  Lemma exec_crash f o e n p w' :
    startable f o e → exec h n (sprog (own_state (q f)) e) (sw (q f)) = (p, w') →
    step (q f) (EvCrashIn e n) = (Sys w' (cfg (q f)) [] false (runs (q f)), RNone).
  Proof.
    intros Hs E. assert (w' = (exec h n (sprog (own_state (q f)) e) (sw (q f))).2) as -> by (by rewrite E).
    assert (alive (q f) = true ∨ e = EvStart) as Ha.
    { destruct o as [i|]; cbn in Hs; [left|]; naive_solver. }
    assert (match e with EvCrash | EvCrashIn _ _ => False | _ => True end) as Hne.
    { destruct o as [i|]; cbn in Hs.
      - destruct Hs as (_ & _ & b & c & _ & _ & ->). unfold msg_of. destruct (c_upd c); [done|]. by destruct (c_call c).
      - destruct Hs as [(-> & _)|(_ & _ & He)]; [done|by destruct e]. }
    unfold sys_step, step_prog, commit_prog. cbn [own_state alive cfg tasks runs].
    destruct (alive (q f)) eqn:Eal.
    - destruct e; try done; try (by rewrite (exec_bind_world h)); destruct n; done.
    - destruct Ha as [Ha| ->]; [done|]. by rewrite (exec_bind_world h).
  Qed.
  Lemma rel_crash f b s rd lg :
    rel f b s rd lg →
    let x := match b with
             | Some (_, e, n, _) => (Sys tt (cfg (q f)) [] false (runs (q f)), EvCrashIn e n)
             | None => (if alive (q f) then Sys tt (cfg (q f)) [] false (runs (q f)) else own_state (q f), EvCrash)
             end in
    ∃ fe, let f' := fstep f fe in
      fe ≠ FAjGone ∧ rel f' None s rd lg ∧ own_state (q f') = x.1 ∧
      f' = Client.Front (q f') false false [] true [] (lose_all <$> cs f) (trace f ++ [(None, x.2, RNone)]).
  Proof.
    intros (H1 & H2 & H3 & H4).
    assert (Forall call_ok (lose_all <$> cs f)) as Hl.
    { apply Forall_fmap. eapply list.Forall_impl; [exact H2|]. intros c Hc. unfold compose, lose_all. by destruct (c_at c). }
    destruct b as [[[[o e] n] p]|]; cbv zeta; cbn [fst snd].
    - destruct H4 as (Hs & Hp & s' & E & Hv). pose proof (exec_crash f o e n p _ Hs E) as Ec.
      assert (∃ fe, fe ≠ FAjGone ∧ fstep f fe = process_dies prof sched name h f (EvCrashIn e n)) as (fe & Hne & Hfe).
      { destruct o as [i|]; cbn in Hs.
        - destruct Hs as (Hb & Ha & b & c & Eb & Ei & ->). exists (FCrashIn None n). split; [done|].
          cbn [Client.fstep]. by rewrite Eb, Ei, Hb.
        - exists (FCrashIn (Some e) n). split; [done|]. cbn [Client.fstep].
          destruct Hs as [(-> & Hk & Hb)|(Hb & Ha & He)]; [by rewrite Hk, Hb|by rewrite He]. }
      exists fe. rewrite Hfe. unfold process_dies. rewrite Ec. split; [done|].
      split; [|split; [|done]].
      + split; [constructor|]. split; [done|]. split; [done|]. by exists s'.
      + done.
    - exists FCrash. split; [done|]. cbn [Client.fstep]. unfold process_dies, sys_step.
      destruct H4 as (s' & E & Hv). destruct (alive (q f)) eqn:Ea.
      + split; [|split; done]. split; [constructor|]. split; [done|]. split; [done|]. by exists s'.
      + split; [|split; done]. split; [done|]. split; [done|]. split; [done|]. by exists s'.
  Qed.
End one.

Section office.
  Context {T : Type} {TD : EqDecision T}.
  Context {M : T → Type} {SM : ∀ t, Serde (M t)}.
  Context (prof : profile).
  Context (sched : string → option (time → option time)).
  Context (name : T → string).
  Context (clock : T → nat → time).
  Context (ids : T → string → Prop).
  Context (Hsep : separate name ids).
  Notation fstep t := (fstep prof sched (name t) (mem_h (clock t))).
  Notation frun t := (front_run prof sched (name t) (mem_h (clock t))).
  Notation ostep := (ostep M prof sched name clock).
  Notation orun := (office_run M prof sched name clock).
  Notation vw t := (vw (lists_of (name t)) (ids t)).
  Notation rel t := (rel prof sched (name t) (clock t) (ids t)).
  Implicit Types o : office M.

  Local Arguments own_part : simpl never.
  Lemma set_desk_same (ds : ∀ t, desk M t) t d : set_desk M ds t d t = d.
  Proof.
    unfold set_desk. destruct (decide (t = t)) as [e|]; [|done].
    rewrite (proof_irrel e eq_refl). done.
  Qed.
  Lemma set_desk_other (ds : ∀ t, desk M t) t d t' : t ≠ t' → set_desk M ds t d t' = ds t'.
  Proof. intros H. unfold set_desk. by destruct (decide (t = t')). Qed.
  Lemma own_part_app t a b : own_part (T := T) t (a ++ b) = own_part t a ++ own_part t b.
  Proof. unfold own_part. apply omap_app. Qed.
  Lemma own_part_same t l : own_part (T := T) t (map (pair t) l) = l.
  Proof. induction l as [|x l IH]; [done|]. unfold own_part in *. cbn. rewrite decide_True by done. by rewrite IH. Qed.
  Lemma own_part_other t t' l : t ≠ t' → own_part (T := T) t' (map (pair t) l) = [].
  Proof. intros H. induction l as [|x l IH]; [done|]. unfold own_part in *. cbn. rewrite decide_False by done. exact IH. Qed.
  Lemma own_with {W N} (s : sys unit N) (w : W) : own_state (with_world s w) = s.
  Proof. by destruct s as [[] c ts a r]. Qed.

  Definition act_of {t} (b : busy M t) : act := (b_call b, b_event b, b_made b, b_rest b).
  Definition sim o t (f : front (M t) world) : Prop :=
    let d := desks o t in
    f = Client.Front (q f) (d_known d) (d_begun d) (d_box d) (o_up o) (own_part t (o_box o)) (d_cs d) (d_trace d) ∧
    own_state (q f) = d_q d ∧
    rel t f (act_of <$> d_busy d) (o_store o) (d_reads d) (d_log d).
  Lemma sim_view o t f : sim o t f → view M o t = set_q f (q (view M o t)) ∧ alive (q (view M o t)) = alive (q f).
  Proof.
    intros (Hf & Hq & _). split.
    - rewrite Hf. done.
    - cbn. rewrite <-Hq. done.
  Qed.

  Definition names_ok o : Prop :=
    (∀ t, name t ∈ o_names o ↔ d_known (desks o t) = true) ∧ (o_up o = false → o_box o = []).
  Definition start (s0 : store) t : front (M t) world := front_init (World s0 0 []).
  Definition inv (s0 : store) (G : Prop) o : Prop :=
    names_ok o ∧ ∀ t, ∃ fs, sim o t (frun t (start s0 t) fs) ∧ (G → FAjGone ∉ fs).

  Lemma sim_put_same o t (f f' : front (M t) world) b box :
    f' = set_q f (q f') → own_state (q f) = own_state (q f') → aj_box f = own_part t box →
    rel t f (act_of <$> b) (st (sw (q f'))) (reads (sw (q f'))) (log (sw (q f'))) →
    sim (put M name o t f' b box) t f.
  Proof.
    intros H1 H2 H3 H4. unfold sim, put. cbn. rewrite set_desk_same. cbn. split; [|by rewrite H2].
    rewrite H1. cbn. rewrite <-H3. by destruct f.
  Qed.
  Lemma sim_put_other o t t' (f : front (M t) world) g b box :
    t ≠ t' → sim o t' g → aj_up f = o_up o → own_part t' box = own_part t' (o_box o) →
    vw t' (o_store o) (st (sw (q f))) → sim (put M name o t f b box) t' g.
  Proof.
    intros Hne (H1 & H2 & H3) Hup Hbox Hv. unfold sim, put. cbn. rewrite set_desk_other by done.
    split; [by rewrite Hup, Hbox|]. split; [done|]. by eapply rel_frame.
  Qed.
  Lemma names_put o t (f : front (M t) world) b box :
    names_ok o → (d_known (desks o t) = true → known f = true) → (aj_up f = false → box = []) →
    names_ok (put M name o t f b box).
  Proof.
    intros [H1 H2] Hk Hb. split; [|done]. intros t'. cbn. destruct (decide (t = t')) as [<-|Hne].
    - rewrite set_desk_same. cbn. specialize (H1 t). destruct (known f) eqn:E, (d_known (desks o t)) eqn:E'; cbn.
      + done.
      + split; [done|]. intros _. apply elem_of_cons. by left.
      + by specialize (Hk eq_refl).
      + done.
    - rewrite set_desk_other by done. rewrite <-H1. destruct (known f && _); [|done].
      rewrite elem_of_cons. split; [|by right]. intros [E|H]; [|done]. destruct (Hsep t t' Hne) as [Hn _]. congruence.
  Qed.
  Lemma run_snoc t (f : front (M t) world) fs fe : frun t f (fs ++ [fe]) = fstep t (frun t f fs) fe.
  Proof. unfold front_run. by rewrite fold_left_app. Qed.

  (** A step of callers or AJ of type [t]. *)
  Lemma sim_outside o t (f : front (M t) world) (fe : fevent (M t)) box :
    sim o t f → good f → boxed f → outside fe →
    match fe with FCall c => call_ids (ids t) c | _ => True end →
    let f' := fstep t (view M o t) fe in
    own_part t box = aj_box f' →
    sim (put M name o t f' (d_busy (desks o t)) box) t (fstep t f fe) ∧
    f' = set_q (fstep t f fe) (q (view M o t)).
  Proof.
    intros Hsim Hg Hb Ho Hc f' Hbox. destruct (sim_view o t f Hsim) as [Ev Ea].
    destruct (outside_q prof sched (name t) (clock t) f fe (q (view M o t)) Ho Ea) as [Eo Eq].
    rewrite <-Ev in Eo. fold f' in Eo. split; [|done].
    assert (q f' = q (view M o t)) as Eq' by (by rewrite Eo).
    apply sim_put_same.
    - rewrite Eq'. done.
    - rewrite Eq, Eq'. destruct Hsim as (_ & E & _). rewrite E. cbn. by rewrite own_with.
    - rewrite Hbox. by rewrite Eo.
    - rewrite Eq'. destruct Hsim as (_ & _ & Hr). cbn. by apply rel_outside.
  Qed.
  Lemma outside_known t (f : front (M t) world) fe : outside fe → known f = true → known (fstep t f fe) = true.
  Proof.
    intros Ho Hkf. destruct fe as [cl|i| | | | |e'| |o' k]; try done.
    - destruct cl; try done. cbn. by destruct (aj_up f).
    - cbn [Client.fstep]. destruct (cs f !! i) as [c|]; [|done]. destruct (c_at c); try done; repeat case_match; done.
    - cbn [Client.fstep]. destruct (aj_box f) as [|i b]; [done|]. destruct (cs f !! i) as [c|]; [|done].
      destruct (c_at c); try done. by rewrite Hkf.
  Qed.
  Lemma names_outside o t fe box :
    names_ok o → outside fe → let f' := fstep t (view M o t) fe in
    (aj_up f' = false → box = []) → names_ok (put M name o t f' (d_busy (desks o t)) box).
  Proof. intros Hn Ho f' Hbe. apply names_put; [done| |done]. intros Hk. by apply outside_known. Qed.
  Lemma run_good s0 t fs : good (frun t (start s0 t) fs) ∧ boxed (frun t (start s0 t) fs).
  Proof. split; [apply good_after|apply boxed_run, boxed_init]. Qed.
  Lemma step_outside s0 (G G' : Prop) o t (fe : fevent (M t)) box :
    inv s0 G o → (G' → G) → outside fe → fe ≠ FAjGone →
    match fe with FCall c => call_ids (ids t) c | _ => True end →
    let f' := fstep t (view M o t) fe in
    own_part t box = aj_box f' → (∀ t', t ≠ t' → own_part t' box = own_part t' (o_box o)) →
    aj_up f' = o_up o → (aj_up f' = false → box = []) →
    inv s0 G' (put M name o t f' (d_busy (desks o t)) box).
  Proof.
    intros [Hn Hs] HG Ho Hne Hc f' Hbox Hother Hup Hbe.
    assert (∃ fs, sim o t (frun t (start s0 t) fs) ∧ (G → FAjGone ∉ fs)) as (fs & Hsim & Hfs) by apply Hs.
    destruct (run_good s0 t fs) as [Hg Hb].
    destruct (sim_outside o t _ fe box Hsim Hg Hb Ho Hc Hbox) as [Hput Eo].
    assert (q f' = q (view M o t)) as Eq' by (unfold f'; by rewrite Eo).
    split; [by apply names_outside|].
    intros t'. destruct (decide (t = t')) as [<-|Hne'].
    - exists (fs ++ [fe]). split; [|rewrite elem_of_app, elem_of_list_singleton; naive_solver].
      rewrite run_snoc. exact Hput.
    - destruct (Hs t') as (fs' & Hsim' & Hfs'). exists fs'. split; [|naive_solver].
      apply sim_put_other; try done; [by apply Hother|]. rewrite Eq'. apply vw_refl.
  Qed.
  Lemma sim_gone o t (f : front (M t) world) : sim o t f → good f → boxed f → sim (all_gone M o) t (aj_gone f).
  Proof.
    intros (E1 & E2 & E3) Hg Hb. split; [|split].
    - cbn. unfold aj_gone. rewrite E1. done.
    - done.
    - by apply (rel_outside _ _ _ _ _ f FAjGone).
  Qed.
  Lemma step_gone s0 (G G' : Prop) o : inv s0 G o → (G' → False) → inv s0 G' (all_gone M o).
  Proof.
    intros [Hn Hs] HG. split; [split; [apply Hn|done]|]. intros t.
    destruct (Hs t) as (fs & Hsim & Hfs). exists (fs ++ [FAjGone]). split; [|naive_solver].
    rewrite run_snoc. destruct (run_good s0 t fs). by apply sim_gone.
  Qed.

  Lemma sim_begin o t (f : front (M t) world) c (e : event (M t)) :
    d_busy (desks o t) = None → sim o t f → startable f c e →
    sim (begin M prof sched name o t c e) t f ∧
    d_busy (desks (begin M prof sched name o t c e) t) = Some (Busy c e 0 (step_prog prof sched (name t) (d_q (desks o t)) e)) ∧
    (names_ok o → names_ok (begin M prof sched name o t c e)).
  Proof.
    intros Eb (E1 & E2 & E3) Hst. unfold begin. rewrite Eb. unfold sim. cbn. rewrite set_desk_same. cbn. split; [|split].
    - split; [done|]. split; [done|]. rewrite Eb in E3. rewrite <-E2. by apply rel_begin.
    - done.
    - intros [Hn1 Hn2]. split; [|done]. intros t'. cbn.
      destruct (decide (t = t')) as [<-|Hne]; [rewrite set_desk_same|rewrite set_desk_other by done]; apply Hn1.
  Qed.
  Lemma step_begin s0 (G G' : Prop) o t c (e : event (M t)) :
    inv s0 G o → (G' → G) → (∀ f, sim o t f → startable f c e) → inv s0 G' (begin M prof sched name o t c e).
  Proof.
    intros Hi HG Hst. unfold begin. destruct (d_busy (desks o t)) eqn:Eb.
    { destruct Hi as [Hn Hs]. split; [done|]. intros t'. destruct (Hs t') as (fs & ? & ?). exists fs. naive_solver. }
    assert (begin M prof sched name o t c e = set_busy M o t (d_reads (desks o t)) (d_log (desks o t))
      (Some (Busy c e 0 (step_prog prof sched (name t) (d_q (desks o t)) e))) (o_store o)) as Ebg.
    { unfold begin. by rewrite Eb. }
    rewrite <-Ebg. destruct Hi as [Hn Hs]. split.
    { destruct (Hs t) as (fs & Hsim & _). destruct (sim_begin o t _ c e Eb Hsim (Hst _ Hsim)) as (_ & _ & H). by apply H. }
    intros t'. destruct (Hs t') as (fs & Hsim & Hfs). exists fs. split; [|naive_solver].
    destruct (decide (t = t')) as [<-|Hne].
    - apply sim_begin; auto.
    - rewrite Ebg. unfold sim. cbn. rewrite set_desk_other by done. exact Hsim.
  Qed.

  Lemma apart_lists t t' : t ≠ t' → ∀ l, lists_of (name t) l → lists_of (name t') l → False.
  Proof.
    intros Hne l [s1 ->] [s2 E]. apply queue_key_inj in E as [E _]. by destruct (Hsep t t' Hne).
  Qed.
  Lemma sim_eff o t (f : front (M t) world) c e n (X : Set) (x : eff X) k :
    d_busy (desks o t) = Some (Busy c e n (Eff x k)) → sim o t f →
    sim (ostep o (OEff t)) t f ∧
    (∃ a, d_busy (desks (ostep o (OEff t)) t) = Some (Busy c e (S n) (k a))) ∧
    (names_ok o → names_ok (ostep o (OEff t))) ∧ o_up (ostep o (OEff t)) = o_up o ∧
    ∀ t', t ≠ t' → desks (ostep o (OEff t)) t' = desks o t' ∧ vw t' (o_store o) (o_store (ostep o (OEff t))).
  Proof.
    intros Eb (E1 & E2 & E3). cbn [Office.ostep]. rewrite Eb in *. cbn in E3.
    pose proof (rel_eff _ _ _ _ _ _ _ _ _ _ _ _ _ _ _ E3) as Hr. cbv zeta in Hr.
    assert (∀ t', t ≠ t' → vw t' (o_store o) (st (mem_h (clock t) X x (World (o_store o) (d_reads (desks o t)) (d_log (desks o t)))).1)) as Hfr.
    { intros t' Hne. destruct E3 as (_ & _ & _ & _ & [Hw _] & _).
      apply (rel_frame_other (SM' := SM t) (name t') (ids t') (lists_of (name t)) (ids t)); [| |done].
      - intros l H1 H2. by eapply (apart_lists t' t).
      - intros k' H1 H2. destruct (Hsep t' t) as [_ H]; [done|]. by eapply H. }
    destruct (mem_h (clock t) X x (World (o_store o) (d_reads (desks o t)) (d_log (desks o t)))) as [w a].
    cbn [fst snd] in *. split; [|split; [|split; [|split]]].
    - unfold sim. cbn. rewrite set_desk_same. done.
    - exists a. cbn. by rewrite set_desk_same.
    - intros [Hn1 Hn2]. split; [|done]. intros t'. cbn.
      destruct (decide (t = t')) as [<-|Hne]; [rewrite set_desk_same|rewrite set_desk_other by done]; apply Hn1.
    - done.
    - intros t' Hne. cbn. rewrite set_desk_other by done. split; [done|]. by apply Hfr.
  Qed.
  Lemma sim_end o t (f : front (M t) world) c e n x r :
    d_busy (desks o t) = Some (Busy c e n (Ret (x, r))) → sim o t f →
    sim (ostep o (OEnd t)) t (fstep t f (end_event c e)) ∧
    d_busy (desks (ostep o (OEnd t)) t) = None ∧
    (names_ok o → names_ok (ostep o (OEnd t))) ∧ o_up (ostep o (OEnd t)) = o_up o ∧ o_box (ostep o (OEnd t)) = o_box o ∧
    ∀ t', t ≠ t' → desks (ostep o (OEnd t)) t' = desks o t' ∧ o_store (ostep o (OEnd t)) = o_store o.
  Proof.
    intros Eb Hsim. cbn [Office.ostep]. rewrite Eb. cbv zeta. destruct (sim_view o t f Hsim) as [Ev Ea].
    destruct Hsim as (E1 & E2 & E3). rewrite Eb in E3. cbn in E3.
    destruct (rel_end _ _ _ _ _ _ _ _ _ _ _ _ _ _ E3) as (s' & Hq & Hr & Hf').
    cbn [b_call b_event b_made b_rest] in Hq, Hr, Hf'.
    set (fe := end_event c e) in *.
    set (box := match c with Some _ => tail (q_box (view M o t)) | None => q_box (view M o t) end) in *.
    set (g := settle (view M o t) c box e (with_world x (sw (q (view M o t)))) r).
    assert (g = set_q (fstep t f fe) (with_world x (World (o_store o) (d_reads (desks o t)) (d_log (desks o t))))) as Eg.
    { unfold g. rewrite Hf', Hq. unfold settle, box. cbn. rewrite E1.
      destruct (alive x); done. }
    assert (q g = with_world x (World (o_store o) (d_reads (desks o t)) (d_log (desks o t)))) as Eqg by (by rewrite Eg).
    assert (aj_up g = o_up o ∧ aj_box g = own_part t (o_box o) ∧ known g = d_known (desks o t)) as (Gu & Gb & Gk).
    { unfold g, settle. cbn. by destruct (alive x). }
    split; [|split; [|split; [|split; [|split]]]].
    - apply sim_put_same.
      + by rewrite Eqg.
      + rewrite Hq, Eqg. done.
      + rewrite <-Gb, Eg. done.
      + rewrite Eqg. done.
    - cbn. by rewrite set_desk_same.
    - intros Hn. apply names_put; [done| |].
      + by rewrite Gk.
      + rewrite Gu. apply Hn.
    - exact Gu.
    - done.
    - intros t' Hne. cbn. rewrite set_desk_other by done. split; [done|]. by rewrite Eqg.
  Qed.
  Lemma step_inv s0 (G G' : Prop) o oe :
    inv s0 G o → keeps_ids ids oe → (G' → G) → (G' → o_up (ostep o oe) = true) → inv s0 G' (ostep o oe).
  Proof.
    intros Hi Hk HG Hup.
    assert (inv s0 G' o) as Hi'.
    { destruct Hi as [Hn Hs]. split; [done|]. intros t. destruct (Hs t) as (fs & ? & ?). exists fs. naive_solver. }
    assert (∀ t (fe : fevent (M t)), match fe with FCall _ | FGo _ => True | _ => False end →
      match fe with FCall c => call_ids (ids t) c | _ => True end →
      inv s0 G' (caller_step M prof sched name clock o t fe)) as Hcall.
    { intros t fe H1 H2. unfold caller_step.
      destruct (caller_box prof sched (name t) (clock t) (view M o t) fe H1) as (E1 & E2 & E3).
      apply (step_outside s0 G); try done.
      - by destruct fe.
      - by destruct fe.
      - rewrite own_part_app, own_part_same. by rewrite E1 at 2.
      - intros t' Hne. rewrite own_part_app, own_part_other by done. by rewrite app_nil_r.
      - rewrite E2. cbn. intros E. destruct Hi as [[_ Hn] _]. specialize (Hn E).
        assert (aj_box (fstep t (view M o t) fe) = []) as Hbox.
        { destruct fe as [cl|i| | | | |e'| |o' k]; try done.
          - destruct cl; cbn; rewrite ?E; cbn; by rewrite Hn.
          - cbn [Client.fstep view cs aj_up]. rewrite E. destruct (_ !! i) as [c|]; [|cbn; by rewrite Hn].
            destruct (c_at c); repeat case_match; cbn; by rewrite Hn. }
        rewrite Hn, Hbox. by rewrite drop_nil. }
    destruct oe as [t c|t i| |t|t|t e|t|t|].
    - by apply Hcall.
    - by apply Hcall.
    - cbn [Office.ostep] in *. unfold aj_step in *. destruct (o_box o) as [|[t i] box] eqn:Eb; [done|].
      destruct (name_taken M name o t i || negb (aj_up (fstep t (view M o t) FAj))) eqn:Egone.
      { apply (step_gone s0 G); [done|]. intros g. by specialize (Hup g). }
      apply orb_false_iff in Egone as [_ Egone]. apply negb_false_iff in Egone.
      assert (aj_box (view M o t) = i :: own_part t box) as Ebox.
      { cbn. rewrite Eb. unfold own_part. cbn. by rewrite decide_True. }
      pose proof (aj_step_box prof sched (name t) (clock t) (view M o t) i _ Ebox) as H.
      rewrite Egone in H. destruct H as [H1 H2]. cbn in H2.
      apply (step_outside s0 G); try done.
      + intros t' Hne. rewrite Eb. unfold own_part. cbn. by rewrite decide_False.
      + by rewrite Egone, H2.
      + by rewrite Egone.
    - cbn [Office.ostep] in *. destruct (_ && _) eqn:E; [|done]. apply andb_true_iff in E as [E1 E2%negb_true_iff].
      apply (step_begin s0 G); try done. intros f (-> & _). by left.
    - cbn [Office.ostep] in *. destruct (d_box (desks o t)) as [|i b] eqn:Ebx; [done|].
      destruct (d_cs (desks o t) !! i) as [c|] eqn:Ei; [|done].
      destruct (_ && _) eqn:E; [|done]. apply andb_true_iff in E as [E1 E2].
      apply (step_begin s0 G); try done. intros f (E0 & Hq & _). rewrite E0. cbn. split; [done|]. split.
      + change (alive (own_state (q f)) = true). by rewrite Hq.
      + rewrite Ebx. eauto.
    - cbn [Office.ostep] in *. destruct (_ && _) eqn:E; [|done]. apply andb_true_iff in E as [[E1 E2]%andb_true_iff E3].
      apply (step_begin s0 G); try done. intros f (E0 & Hq & _). rewrite E0. right. cbn. split; [done|]. split; [|done].
      change (alive (own_state (q f)) = true). by rewrite Hq.
    - destruct (d_busy (desks o t)) as [[c e n p]|] eqn:Eb; [|by cbn [Office.ostep]; rewrite Eb].
      destruct p as [x| | |X x k]; try (by cbn [Office.ostep]; rewrite Eb).
      destruct Hi' as [Hn Hs]. split.
      + destruct (Hs t) as (fs & Hsim & _). by apply (sim_eff o t _ c e n X x k Eb Hsim).
      + intros t'. destruct (Hs t) as (fs & Hsim & Hfs).
        destruct (sim_eff o t _ c e n X x k Eb Hsim) as (S1 & _ & _ & S2 & S3).
        destruct (decide (t = t')) as [<-|Hne]; [by exists fs|].
        destruct (Hs t') as (fs' & (F1 & F2 & F3) & Hfs'). exists fs'. split; [|done].
        destruct (S3 t' Hne) as [S4 S5]. unfold sim. rewrite S4, S2. split.
        { assert (o_box (ostep o (OEff t)) = o_box o) as ->; [|done].
          cbn [Office.ostep]. rewrite Eb. by destruct (mem_h _ _ _ _). }
        split; [done|]. by eapply rel_frame.
    - destruct (d_busy (desks o t)) as [[c e n p]|] eqn:Eb; [|by cbn [Office.ostep]; rewrite Eb].
      destruct p as [[x r]| | |]; try (by cbn [Office.ostep]; rewrite Eb).
      destruct Hi' as [Hn Hs]. destruct (Hs t) as (fs & Hsim & Hfs).
      destruct (sim_end o t _ c e n x r Eb Hsim) as (S1 & _ & S2 & S3 & S4 & S5). split; [by apply S2|].
      intros t'. destruct (decide (t = t')) as [<-|Hne].
      + exists (fs ++ [end_event c e]). rewrite run_snoc. split; [done|].
        intros g9. rewrite elem_of_app, elem_of_list_singleton. intros [H|H]; [by apply Hfs|]. by apply (end_not_gone c e).
      + destruct (Hs t') as (fs' & Hsim' & Hfs'). exists fs'. split; [|done].
        destruct (S5 t' Hne) as [S6 S7]. unfold sim. rewrite S6, S7, S3, S4. exact Hsim'.
    - destruct Hi' as [Hn Hs]. split; [split; [|done]|].
      + intros t. cbn. unfold die. split; [by intros ?%elem_of_nil|].
        destruct (d_busy (desks o t)), (alive (d_q (desks o t))); done.
      + intros t. destruct (Hs t) as (fs & Hsim & Hfs). set (f := frun t (start s0 t) fs) in *.
        destruct Hsim as (E1 & E2 & E3). destruct (rel_crash _ _ _ _ _ _ _ _ _ _ E3) as (fe & Hne & Hr & Hq & Hf').
        exists (fs ++ [fe]). split; [|intros g9; rewrite elem_of_app, elem_of_list_singleton; naive_solver].
        rewrite run_snoc. fold f. unfold sim. cbn [Office.ostep desks o_up o_box o_store].
        assert (cfg (q f) = cfg (d_q (desks o t)) ∧ runs (q f) = runs (d_q (desks o t)) ∧ alive (q f) = alive (d_q (desks o t)))
          as (Q1 & Q2 & Q3) by (by rewrite <-E2).
        assert (cs f = d_cs (desks o t) ∧ trace f = d_trace (desks o t)) as [C1 C2] by (by rewrite E1).
        rewrite Q1, Q2, Q3, E2, C1, C2 in *. unfold die.
        destruct (d_busy (desks o t)) as [[c e n p]|] eqn:Eb; cbn in *.
        * done.
        * done.
  Qed.

  (** *** Runs *)
  Lemma orun_snoc o oes oe : orun o (oes ++ [oe]) = ostep (orun o oes) oe.
  Proof. unfold office_run. by rewrite fold_left_app. Qed.
  Lemma orun_app o oes oes' : orun o (oes ++ oes') = orun (orun o oes) oes'.
  Proof. unfold office_run. by rewrite fold_left_app. Qed.
  Definition all_up s0 oes : Prop := ∀ k, o_up (orun (office_init M s0) (take k oes)) = true.
  Lemma inv_init s0 (G : Prop) : (∀ t, clean (queue_of name clock ids t) s0) → inv s0 G (office_init M s0).
  Proof.
    intros Hc. split; [split; [|done]|].
    - intros t. cbn. split; [by intros ?%elem_of_nil|done].
    - intros t. exists []. split; [|intros _ ?%elem_of_nil; done]. split; [done|]. split; [done|].
      split; [constructor|]. split; [constructor|]. split; [apply (qok_clean (queue_of name clock ids t)), Hc|].
      exists s0. split; [done|]. apply vw_refl.
  Qed.
  Lemma inv_run s0 oes :
    (∀ t, clean (queue_of name clock ids t) s0) → Forall (keeps_ids ids) oes →
    inv s0 (all_up s0 oes) (orun (office_init M s0) oes).
  Proof.
    intros Hc. induction oes as [|oe oes IH] using rev_ind; intros Hk; [by apply inv_init|].
    apply Forall_app in Hk as [Hk1 Hk2]. apply Forall_cons_1 in Hk2 as [Hk2 _]. rewrite orun_snoc.
    apply (step_inv s0 (all_up s0 oes)); [by apply IH|done| |].
    - intros H k. destruct (decide (k <= length oes)%nat) as [Hle|Hgt].
      + specialize (H k). by rewrite take_app_le in H by done.
      + rewrite take_ge by lia. specialize (H (length oes)). by rewrite take_app in H.
    - intros H. specialize (H (length (oes ++ [oe]))). rewrite firstn_all, orun_snoc in H. done.
  Qed.
  Lemma sim_as_in o t f : sim o t f → as_in name clock ids o t f.
  Proof.
    intros (E1 & E2 & E3). unfold as_in. rewrite E1. cbn. split; [done|]. do 7 (split; [done|]). intros Eb.
    rewrite Eb in E3. destruct E3 as (_ & _ & _ & s' & Ew & Hv). rewrite Ew. cbn. split; [done|]. split; [done|].
    by apply (qvw_same (queue_of name clock ids t)).
  Qed.
  Lemma as_alone s0 oes t :
    (∀ t, clean (queue_of name clock ids t) s0) → Forall (keeps_ids ids) oes →
    ∃ fs, as_in name clock ids (orun (office_init M s0) oes) t (frun t (start s0 t) fs) ∧
      ((∀ k, o_up (orun (office_init M s0) (take k oes)) = true) → FAjGone ∉ fs).
  Proof.
    intros Hc Hk. destruct (inv_run s0 oes Hc Hk) as [_ Hs]. destruct (Hs t) as (fs & Hsim & Hfs).
    exists fs. split; [by apply sim_as_in|done].
  Qed.

  (** *** No caller waits for ever, whatever the queues of other types do *)
  Definition tended o t oes (f : front (M t) world) : Prop :=
    Forall (tends t) oes ∧ names_ok (orun o oes) ∧ d_busy (desks (orun o oes) t) = None ∧ sim (orun o oes) t f.
  Lemma finish t p : ∀ o (f : front (M t) world) c e n,
    names_ok o → d_busy (desks o t) = Some (Busy c e n p) → sim o t f →
    ∃ oes, tended o t oes (fstep t f (end_event c e)).
  Proof.
    induction p as [[x r]| | |X x k IH]; intros o f c e n Hn Eb Hsim.
    - destruct (sim_end o t f c e n x r Eb Hsim) as (S1 & S2 & S3 & _). exists [OEnd t].
      split; [by repeat constructor|]. split; [by apply S3|]. by split.
    - exfalso. destruct Hsim as (_ & _ & H). rewrite Eb in H. by apply rel_total in H.
    - exfalso. destruct Hsim as (_ & _ & H). rewrite Eb in H. by apply rel_total in H.
    - destruct (sim_eff o t f c e n X x k Eb Hsim) as (S1 & [a S2] & S3 & _).
      destruct (IH a _ f c e (S n) (S3 Hn) S2 S1) as (oes & H1 & H2). exists (OEff t :: oes).
      split; [by constructor|done].
  Qed.
  Lemma caller_box_own o t (fe : fevent (M t)) :
    names_ok o → match fe with FCall _ | FGo _ => True | _ => False end →
    let f' := fstep t (view M o t) fe in
    let box := o_box o ++ map (pair t) (drop (length (aj_box (view M o t))) (aj_box f')) in
    own_part t box = aj_box f' ∧ aj_up f' = o_up o ∧ (aj_up f' = false → box = []).
  Proof.
    intros [_ Hn] H1. destruct (caller_box prof sched (name t) (clock t) (view M o t) fe H1) as (E1 & E2 & E3).
    cbv zeta. split; [|split; [by rewrite E2|]].
    - rewrite own_part_app, own_part_same. by rewrite E1 at 2.
    - rewrite E2. cbn. intros E. specialize (Hn E).
      assert (aj_box (fstep t (view M o t) fe) = []) as Hbox.
      { destruct fe as [cl|i| | | | |e'| |o' k]; try done.
        - destruct cl; cbn; rewrite ?E; cbn; by rewrite Hn.
        - cbn [Client.fstep view cs aj_up]. rewrite E. destruct (_ !! i) as [c|]; [|cbn; by rewrite Hn].
          destruct (c_at c); repeat case_match; cbn; by rewrite Hn. }
      rewrite Hn, Hbox. by rewrite drop_nil.
  Qed.
  Lemma d_busy_put o t (f : front (M t) world) b box : d_busy (desks (put M name o t f b box) t) = b.
  Proof. cbn. by rewrite set_desk_same. Qed.
  Lemma lift_go o t (f : front (M t) world) i :
    names_ok o → sim o t f → good f → boxed f → d_busy (desks o t) = None → tended o t [OGo t i] (fstep t f (FGo i)).
  Proof.
    intros Hn Hsim Hg Hb Hi. destruct (caller_box_own o t (FGo i) Hn Logic.I) as (H1 & H2 & H3).
    split; [by repeat constructor|]. split; [|split].
    - cbn [office_run fold_left Office.ostep]. by apply names_outside.
    - cbn [office_run fold_left Office.ostep]. unfold caller_step. by rewrite d_busy_put.
    - cbn [office_run fold_left Office.ostep]. by apply sim_outside.
  Qed.
  Lemma names_gone o : names_ok o → names_ok (all_gone M o).
  Proof. intros [H1 H2]. by split. Qed.
  (** AJ reads what is before the next message of type [t], and that; or dies on the way. *)
  Lemma lift_aj box : ∀ o t (f : front (M t) world),
    o_box o = box → names_ok o → sim o t f → good f → boxed f → d_busy (desks o t) = None → o_up o = true →
    ∃ oes f', tended o t oes f' ∧ (f' = fstep t f FAj ∨ f' = aj_gone f).
  Proof.
    induction box as [|[t' i] box IH]; intros o t f Eb Hn Hsim Hg Hb Hi Hup.
    - exists [], f. split; [by split; [constructor|]|]. left. destruct Hsim as (E1 & _).
      cbn [Client.fstep]. rewrite E1. cbn. by rewrite Eb.
    - assert (ostep o OAj = if name_taken M name o t' i || negb (aj_up (fstep t' (view M o t') FAj)) then all_gone M o
                            else put M name o t' (fstep t' (view M o t') FAj) (d_busy (desks o t')) box) as Es.
      { cbn [Office.ostep]. unfold aj_step. by rewrite Eb. }
      destruct (name_taken M name o t' i || negb (aj_up (fstep t' (view M o t') FAj))) eqn:Egone.
      { exists [OAj], (aj_gone f). split; [|by right]. unfold tended. cbn [office_run fold_left]. rewrite Es.
        split; [by repeat constructor|]. split; [by apply names_gone|]. split; [done|by apply sim_gone]. }
      apply orb_false_iff in Egone as [_ Egone]. apply negb_false_iff in Egone.
      assert (aj_box (view M o t') = i :: own_part t' box) as Ebox.
      { cbn. rewrite Eb. unfold own_part. cbn. by rewrite decide_True. }
      pose proof (aj_step_box prof sched (name t') (clock t') (view M o t') i _ Ebox) as H.
      rewrite Egone in H. destruct H as [H1 H2].
      destruct (decide (t' = t)) as [->|Hne].
      + exists [OAj], (fstep t f FAj). split; [|by left]. unfold tended. cbn [office_run fold_left]. rewrite Es.
        split; [by repeat constructor|]. split; [apply names_outside; [done|done|by rewrite Egone]|].
        split; [by rewrite d_busy_put|]. by apply sim_outside.
      + destruct (outside_q prof sched (name t') (clock t') (view M o t') FAj (q (view M o t')) Logic.I eq_refl) as [_ Eq].
        destruct (IH (ostep o OAj) t f) as (oes & f' & (K1 & K2) & K3); try done.
        * by rewrite Es.
        * rewrite Es. apply names_outside; [done|done|by rewrite Egone].
        * rewrite Es. apply sim_put_other; [done|done|by rewrite Egone| |].
          -- rewrite Eb. unfold own_part. cbn. by rewrite decide_False.
          -- rewrite Eq. apply vw_refl.
        * rewrite Es. cbn. by rewrite set_desk_other.
        * rewrite Es. done.
        * exists (OAj :: oes), f'. split; [|done]. split; [by constructor|done].
  Qed.
  Lemma tended_app o t oes oes' f f' : tended o t oes f → tended (orun o oes) t oes' f' → tended o t (oes ++ oes') f'.
  Proof. intros (H1 & _) (H2 & H3). unfold tended. rewrite orun_app. split; [by apply Forall_app|done]. Qed.
  Lemma lift_begin o t (f : front (M t) world) oe c e :
    names_ok o → sim o t f → d_busy (desks o t) = None → tends t oe →
    ostep o oe = begin M prof sched name o t c e → startable f c e →
    ∃ oes, tended o t oes (fstep t f (end_event c e)).
  Proof.
    intros Hn Hsim Hi Ht Es Hst. destruct (sim_begin o t f c e Hi Hsim Hst) as (S1 & S2 & S3).
    destruct (finish t _ _ f c e _ (S3 Hn) S2 S1) as (oes & H1 & H2). exists (oe :: oes).
    unfold tended. cbn [office_run fold_left]. rewrite Es. split; [by constructor|done].
  Qed.
  Lemma lift o t (f : front (M t) world) fe :
    names_ok o → sim o t f → good f → boxed f → d_busy (desks o t) = None → serves fe →
    ∃ oes f', tended o t oes f' ∧ (f' = fstep t f fe ∨ o_up o = true ∧ f' = aj_gone f).
  Proof.
    intros Hn Hsim Hg Hb Hi Hs.
    assert (∀ fe', fstep t f fe' = f → ∃ oes f', tended o t oes f' ∧ (f' = fstep t f fe' ∨ o_up o = true ∧ f' = aj_gone f)) as Hnop.
    { intros fe' E. exists [], f. split; [by split; [constructor|]|by left]. }
    assert (∀ fe' oe c e, tends t oe → ostep o oe = begin M prof sched name o t c e → startable f c e → end_event c e = fe' →
      ∃ oes f', tended o t oes f' ∧ (f' = fstep t f fe' ∨ o_up o = true ∧ f' = aj_gone f)) as Hbeg.
    { intros fe' oe c e H1 H2 H3 <-. destruct (lift_begin o t f oe c e Hn Hsim Hi H1 H2 H3) as (oes & H). eauto. }
    pose proof Hsim as (E1 & E2 & E3).
    assert (alive (q f) = alive (d_q (desks o t))) as Eal by (by rewrite <-E2).
    destruct fe as [cl|i| | | | |e'| |o' k]; try done.
    - exists [OGo t i], (fstep t f (FGo i)). split; [by apply lift_go|by left].
    - destruct (o_up o) eqn:Eup.
      + destruct (lift_aj _ o t f eq_refl) as (oes & f' & H1 & H2); try done. exists oes, f'. naive_solver.
      + apply Hnop. destruct Hn as [_ Hn]. specialize (Hn Eup).
        cbn [Client.fstep]. rewrite E1. cbn. by rewrite Hn.
    - destruct (d_known (desks o t) && negb (d_begun (desks o t))) eqn:E.
      + apply (Hbeg _ (OBegin t) None EvStart); try done.
        * cbn [Office.ostep]. by rewrite E.
        * apply andb_true_iff in E as [Ea Eb%negb_true_iff]. left. by rewrite E1.
      + apply Hnop. cbn [Client.fstep]. rewrite E1. cbn. by rewrite E.
    - destruct (d_box (desks o t)) as [|i b] eqn:Ebx.
      { apply Hnop. cbn [Client.fstep]. by rewrite E1. }
      destruct (d_cs (desks o t) !! i) as [c|] eqn:Ei.
      2: { apply Hnop. cbn [Client.fstep]. rewrite E1. cbn. by rewrite Ei. }
      destruct (d_begun (desks o t) && alive (d_q (desks o t))) eqn:E.
      2: { apply Hnop. cbn [Client.fstep]. rewrite <-Eal in E. rewrite E1. cbn. by rewrite Ei, E. }
      apply (Hbeg _ (OTake t) (Some i) (msg_of c)); try done.
      + cbn [Office.ostep]. by rewrite Ebx, Ei, E.
      + apply andb_true_iff in E as [Ea Eb']. rewrite E1. cbn. rewrite Eal. eauto 10.
  Qed.
  Lemma tended_up o t oes f : tended o t oes f → o_up (orun o oes) = aj_up f.
  Proof. intros (_ & _ & _ & E & _). by rewrite E. Qed.
  Lemma gone_stays t (f : front (M t) world) fe : serves fe → aj_up f = false → aj_up (fstep t f fe) = false.
  Proof.
    intros Hs Hup. destruct fe as [cl|i| | | | |e'| |o' k]; try done; cbn [Client.fstep].
    - destruct (cs f !! i) as [c|]; [|done]. destruct (c_at c); repeat case_match; done.
    - destruct (aj_box f) as [|i b]; [done|]. destruct (cs f !! i) as [c|]; [|done].
      destruct (c_at c); repeat case_match; done.
    - destruct (_ && _); [|done]. unfold queue_step, settle. destruct (sys_step _ _ _ _ _ _) as [s r]. by destruct (alive s).
    - destruct (q_box f) as [|i b]; [done|]. destruct (cs f !! i) as [c|]; [|done].
      destruct (_ && _); [|done]. unfold queue_step, settle. destruct (sys_step _ _ _ _ _ _) as [s r]. by destruct (alive s).
  Qed.
  Lemma sim_up o t f : sim o t f → o_up o = aj_up f.
  Proof. intros (E & _). by rewrite E. Qed.
  Lemma settle_length t (f : front (M t) world) c b e s r : length (cs (settle f c b e s r)) = length (cs f).
  Proof. unfold settle. destruct (alive s), c; cbn; by rewrite ?fmap_length, ?alter_length. Qed.
  Lemma step_length t (f : front (M t) world) fe :
    match fe with FCall _ => False | _ => True end → length (cs (fstep t f fe)) = length (cs f).
  Proof.
    assert (∀ c b e, length (cs (queue_step prof sched (name t) (mem_h (clock t)) f c b e)) = length (cs f)) as Hq.
    { intros c b e. unfold queue_step. destruct (sys_step _ _ _ _ _ _). apply settle_length. }
    assert (∀ e, length (cs (process_dies prof sched (name t) (mem_h (clock t)) f e)) = length (cs f)) as Hp.
    { intros e. unfold process_dies. destruct (sys_step _ _ _ _ _ _). cbn. by rewrite fmap_length. }
    destruct fe as [cl|i| | | | |e'| |o' k]; try done; intros _; cbn [Client.fstep];
      repeat case_match; cbn; rewrite ?Hq, ?Hp, ?insert_length, ?fmap_length; done.
  Qed.
  Lemma lift_run t fs : ∀ o (f : front (M t) world),
    names_ok o → sim o t f → good f → boxed f → d_busy (desks o t) = None → Forall serves fs →
    ∃ oes f', tended o t oes f' ∧ good f' ∧ boxed f' ∧ length (cs f') = length (cs f) ∧
      (f' = frun t f fs ∨ o_up o = true ∧ o_up (orun o oes) = false).
  Proof.
    induction fs as [|fe fs IH]; intros o f Hn Hsim Hg Hb Hi Hs.
    - exists [], f. split; [by split; [constructor|]|]. split; [done|]. split; [done|]. split; [done|]. by left.
    - apply Forall_cons_1 in Hs as [Hs1 Hs2].
      destruct (lift o t f fe Hn Hsim Hg Hb Hi Hs1) as (oes & f1 & K1 & K2).
      destruct K2 as [-> |[Hup ->]].
      + pose proof K1 as (_ & K3 & K4 & K5).
        destruct (IH _ _ K3 K5 (good_step _ _ _ _ _ _ Hg) (boxed_step _ _ _ _ _ _ Hb) K4 Hs2) as (oes' & f' & L1 & L2 & L3 & L4 & L5).
        exists (oes ++ oes'), f'. split; [by eapply tended_app|]. split; [done|]. split; [done|]. split.
        { rewrite L4. apply step_length. by destruct fe. }
        destruct L5 as [->|[L5 L6]]; [by left|right]. rewrite orun_app. split; [|done].
        destruct (o_up o) eqn:E; [done|]. pose proof (gone_stays t f fe Hs1) as Hd.
        rewrite (tended_up _ _ _ _ K1) in L5. rewrite <-(sim_up _ _ _ Hsim), E in Hd. specialize (Hd eq_refl). congruence.
      + exists oes, (aj_gone f). split; [done|]. split; [by apply (good_step prof sched (name t) (mem_h (clock t)) f FAjGone)|].
        split; [by apply boxed_gone|]. split; [cbn; by rewrite fmap_length|]. right. split; [done|].
        by rewrite (tended_up _ _ _ _ K1).
  Qed.
  Lemma served o t i c s0 (G : Prop) :
    inv s0 G o → d_cs (desks o t) !! i = Some c →
    ∃ oes c', Forall (tends t) oes ∧ d_cs (desks (orun o oes) t) !! i = Some c' ∧
      (c_at c' = Gone ∨ ∃ r to, c_at c' = Returned r to).
  Proof.
    intros [Hn Hs] Ei. destruct (Hs t) as (fs & Hsim & _). destruct (run_good s0 t fs) as [Hg Hb].
    set (f := frun t (start s0 t) fs) in *. clearbody f.
    assert (∃ oes f', tended o t oes f' ∧ good f' ∧ boxed f' ∧ length (cs f') = length (cs f)) as (oes0 & f0 & T0 & Hg0 & Hb0 & Hl0).
    { destruct (d_busy (desks o t)) as [[c9 e n p]|] eqn:Eb.
      - destruct (finish t p o f c9 e n Hn Eb Hsim) as (oes & H). exists oes, (fstep t f (end_event c9 e)).
        split; [done|]. split; [by apply good_step|]. split; [by apply boxed_step|]. apply step_length. by destruct c9, e.
      - exists [], f. split; [by split; [constructor|]|done]. }
    pose proof T0 as (_ & Hn0 & Hi0 & S0).
    assert (∀ o1 f1, names_ok o1 → sim o1 t f1 → good f1 → boxed f1 → d_busy (desks o1 t) = None → length (cs f1) = length (cs f) →
      ∃ oes f', tended o1 t oes f' ∧ good f' ∧ boxed f' ∧ length (cs f') = length (cs f) ∧
        ((∃ c', cs f' !! i = Some c' ∧ is_over c' = true) ∨ o_up o1 = true ∧ o_up (orun o1 oes) = false)) as Hgo.
    { intros o1 f1 N1 N2 N3 N4 N5 N6.
      assert (is_Some (cs f1 !! i)) as [c1 E1].
      { apply lookup_lt_is_Some. rewrite N6. destruct Hsim as (-> & _). cbn. by eapply lookup_lt_Some. }
      destruct (all_over prof sched (name t) (mem_h (clock t)) (S (rank c1)) f1 i c1 N4 E1) as (fs1 & c2 & F1 & F2 & F3); [lia|].
      destruct (lift_run t fs1 o1 f1 N1 N2 N3 N4 N5 F1) as (oes & f' & L1 & L2 & L3 & L4 & L5).
      exists oes, f'. split; [done|]. split; [done|]. split; [done|]. split; [congruence|].
      destruct L5 as [->|L5]; [left; eauto|by right]. }
    assert (∀ oes f' c', tended o t oes f' → cs f' !! i = Some c' → is_over c' = true → 
      ∃ oes c', Forall (tends t) oes ∧ d_cs (desks (orun o oes) t) !! i = Some c' ∧
      (c_at c' = Gone ∨ ∃ r to, c_at c' = Returned r to)) as Hend.
    { intros oes f' c' (H1 & _ & _ & (E & _)) H2 H3. exists oes, c'. split; [done|]. split; [by rewrite E in H2|].
      unfold is_over in H3. destruct (c_at c'); try discriminate H3; eauto. }
    destruct (Hgo _ f0 Hn0 S0 Hg0 Hb0 Hi0 Hl0) as (oes1 & f1 & T1 & Hg1 & Hb1 & Hl1 & R1).
    destruct R1 as [(c1 & R1 & R1')|[_ U1]]; [by apply (Hend _ f1 c1 (tended_app _ _ _ _ _ _ T0 T1))|].
    pose proof T1 as (_ & Hn1 & Hi1 & S1).
    destruct (Hgo _ f1 Hn1 S1 Hg1 Hb1 Hi1 Hl1) as (oes2 & f2 & T2 & Hg2 & Hb2 & Hl2 & R2).
    destruct R2 as [(c2 & R2 & R2')|[U2 _]]; [|congruence].
    by apply (Hend _ f2 c2 (tended_app _ _ _ _ _ _ T0 (tended_app _ _ _ _ _ _ T1 T2))).
  Qed.

  (** *** What callers can rely on *)
  Section reached.
  Context (s0 : store) (oes : list (oevent M)).
  Context (Hc : ∀ t, clean (queue_of name clock ids t) s0) (Hk : Forall (keeps_ids ids) oes).
  Notation o := (orun (office_init M s0) oes).
  Lemma office_history t :
    let d := desks o t in
    let es := map (λ x, x.1.2) (d_trace d) in
    let after es := sys_run prof sched (name t) (mem_h (clock t)) (sys_init (World s0 0 [])) es in
    own_state (after es) = d_q d ∧
    (∀ k i e r, d_trace d !! k = Some (i, e, r) →
       r = (sys_step prof sched (name t) (mem_h (clock t)) (after (take k es)) e).2) ∧
    (d_busy d = None →
       reads (sw (after es)) = d_reads d ∧ log (sw (after es)) = d_log d ∧
       same_view (queue_of name clock ids t) (st (sw (after es))) (o_store o)).
  Proof.
    destruct (as_alone s0 oes t Hc Hk) as (fs & H & _). destruct H as (H1 & _ & _ & _ & _ & _ & _ & Ht & Hb).
    destruct (hist_after prof sched (name t) (mem_h (clock t)) (World s0 0 []) fs) as [E1 E2].
    cbv zeta in *. unfold start, events_of in *. rewrite Ht in *. rewrite <-E1. done.
  Qed.
  Lemma office_own_steps t k i e r :
    d_trace (desks o t) !! k = Some (i, e, r) →
    match i with Some i => is_Some (d_cs (desks o t) !! i) | None => by_itself (c_call <$> d_cs (desks o t)) e end.
  Proof.
    destruct (as_alone s0 oes t Hc Hk) as (fs & H & _). destruct H as (_ & _ & _ & _ & _ & _ & Ec & Ht & _).
    rewrite <-Ht, <-Ec. apply own_steps.
  Qed.
  Lemma office_answers t i c :
    let d := desks o t in
    d_cs d !! i = Some c →
    fits (c_call c) (c_from c) (steps_of i (d_trace d)) ∧
    ∀ r to, c_at c = Returned r to →
      explained (c_call c) (c_from c) to r (steps_of i (d_trace d)) ∧ (to <= length (d_trace d))%nat.
  Proof.
    destruct (as_alone s0 oes t Hc Hk) as (fs & H & _). destruct H as (_ & _ & _ & _ & _ & _ & Ec & Ht & _).
    cbv zeta. rewrite <-Ht, <-Ec. apply calls_explained.
  Qed.
  Lemma office_order t i1 i2 c1 c2 r1 to1 k1 e1 x1 k2 e2 x2 :
    let d := desks o t in
    d_cs d !! i1 = Some c1 → d_cs d !! i2 = Some c2 →
    c_at c1 = Returned r1 to1 → (to1 <= c_from c2)%nat →
    d_trace d !! k1 = Some (Some i1, e1, x1) → d_trace d !! k2 = Some (Some i2, e2, x2) → (k1 < k2)%nat.
  Proof.
    destruct (as_alone s0 oes t Hc Hk) as (fs & H & _). destruct H as (_ & _ & _ & _ & _ & _ & Ec & Ht & _).
    cbv zeta. rewrite <-Ht, <-Ec. apply calls_in_order.
  Qed.
  Lemma office_served t i c :
    d_cs (desks o t) !! i = Some c →
    ∃ oes' c', Forall (tends t) oes' ∧
      d_cs (desks (orun (office_init M s0) (oes ++ oes')) t) !! i = Some c' ∧
      (c_at c' = Gone ∨ ∃ r to, c_at c' = Returned r to).
  Proof.
    intros Ei. destruct (served _ t i c s0 _ (inv_run s0 oes Hc Hk) Ei) as (oes' & c' & H1 & H2 & H3).
    exists oes', c'. rewrite orun_app. done.
  Qed.
  (** AJ dies of a second registration only. *)
  Lemma office_dies oe :
    o_up o = true → o_up (ostep o oe) = false →
    oe = OAj ∧ ∃ t i box c, o_box o = (t, i) :: box ∧ d_cs (desks o t) !! i = Some c ∧ c_at c = InitSent ∧
      d_known (desks o t) = true.
  Proof.
    destruct (inv_run s0 oes Hc Hk) as [Hn _]. intros Hup Hdn. generalize dependent (orun (office_init M s0) oes).
    intros o Hn Hup Hdn.
    assert (∀ t fe, match fe with FCall _ | FGo _ => True | _ => False end →
      o_up (caller_step M prof sched name clock o t fe) = false → False) as Hcall.
    { intros t fe H1 H2. destruct (caller_box_own o t fe Hn H1) as (_ & H3 & _). cbn in H2. cbv zeta in H3.
      rewrite H3 in H2. congruence. }
    assert (∀ t c e, o_up (begin M prof sched name o t c e) = false → False) as Hbg.
    { intros t c e. unfold begin. destruct (d_busy (desks o t)); cbn; congruence. }
    destruct oe as [t c|t i| |t|t|t e|t|t|]; cbn [Office.ostep] in Hdn.
    - by destruct (Hcall t (FCall c)).
    - by destruct (Hcall t (FGo i)).
    - split; [done|]. unfold aj_step in Hdn. destruct (o_box o) as [|[t i] box] eqn:Eb; [congruence|].
      destruct (name_taken M name o t i) eqn:Et; cbn [orb] in Hdn.
      + unfold name_taken in Et. destruct (d_cs (desks o t) !! i) as [c|] eqn:Ei; [|done].
        destruct (c_at c) eqn:Ec; try done. apply bool_decide_eq_true in Et. exists t, i, box, c.
        split; [done|]. split; [done|]. split; [done|]. by apply Hn.
      + assert (aj_box (view M o t) = i :: own_part t box) as Ebox.
        { cbn. rewrite Eb. unfold own_part. cbn. by rewrite decide_True. }
        pose proof (aj_step_box prof sched (name t) (clock t) (view M o t) i _ Ebox) as H.
        destruct (aj_up (fstep t (view M o t) FAj)) eqn:Eu; cbn [negb] in Hdn.
        { change (aj_up (fstep t (view M o t) FAj) = false) in Hdn. by rewrite Eu in Hdn. }
        destruct (H Hup) as (_ & Hkn & c & Ei & Ec). exists t, i, box, c. done.
    - exfalso. destruct (_ && _); [by eapply Hbg|congruence].
    - exfalso. destruct (d_box (desks o t)) as [|i b]; [congruence|]. destruct (d_cs (desks o t) !! i); [|congruence].
      destruct (_ && _); [by eapply Hbg|congruence].
    - exfalso. destruct (_ && _); [by eapply Hbg|congruence].
    - exfalso. destruct (d_busy (desks o t)) as [[c e n p]|]; [|congruence]. destruct p as [x| | |X x k]; try congruence.
      destruct (mem_h _ _ _ _); cbn in Hdn; congruence.
    - exfalso. destruct (d_busy (desks o t)) as [[c e n p]|]; [|congruence]. destruct p as [[x r]| | |X x k]; try congruence.
      cbn in Hdn. unfold settle in Hdn. cbn in Hdn. destruct (alive x); cbn in Hdn; congruence.
    - done.
  Qed.
  End reached.
End office.
