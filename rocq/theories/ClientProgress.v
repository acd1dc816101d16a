(** No caller waits for ever. *)
From Verif Require Import SpecClient ClientFacts.

Section client.
  Context {M : Type} `{SM : Serde M}.
  Context (prof : profile).
  Context (sched : string → option (time → option time)).
  Context (name : string).
  Context {W : Type} (h : handler W).
  Notation step := (sys_step prof sched name h).
  Notation fstep := (fstep prof sched name h).
  Notation frun := (front_run prof sched name h).
  Notation qstep := (queue_step prof sched name h).
  Implicit Types (f : front M W) (c : cstate M).

  (** Who waits has a message in a mailbox that is read. *)
  Definition in_box f (i : nat) c : Prop :=
    match c_at c with
    | MsgSent => i ∈ q_box f ∧ mailbox_open f = true
    | InitSent => i ∈ aj_box f
    | AtSpawn => i ∈ aj_box f ∧ ∃ j, c_call c = CJust j
    | _ => True
    end.
  Definition boxed f : Prop :=
    (∀ i c, cs f !! i = Some c → in_box f i c) ∧
    Forall (λ i, i < length (cs f))%nat (q_box f) ∧ Forall (λ i, i < length (cs f))%nat (aj_box f) ∧
    (begun f = true → known f = true).

  Lemma recv_not_sent n c r : match c_at (recv n c r) with Returned _ _ | AtLookup => True | _ => False end.
  Proof. unfold recv. destruct (c_call c), (c_upd c); cbn; try done. by destruct r as [| |[j|]|]. Qed.

  Lemma boxed_qstep f o b e :
    boxed f → (∀ i, i ∈ b → i ∈ q_box f) → (∀ i, i ∈ q_box f → i ∉ b → o = Some i) →
    known f = true → boxed (qstep f o b e).
  Proof.
    intros (Hc & Hq & Ha & Hbk) Hb Hb' Hk. unfold queue_step, settle. destruct (step (q f) e) as [s r].
    assert (Forall (λ i, i < length (cs f))%nat b) as Hqb.
    { apply list.Forall_forall. intros i Hi. rewrite list.Forall_forall in Hq. by apply Hq, Hb. }
    destruct (alive s) eqn:Eal.
    - assert (∀ l, length l = length (cs f) →
        (∀ i c, l !! i = Some c → ∃ c0, cs f !! i = Some c0 ∧
           (c = c0 ∧ (c_at c0 = MsgSent → o ≠ Some i) ∨ match c_at c with Returned _ _ | AtLookup => True | _ => False end)) →
        boxed (Front s (known f) true b (aj_up f) (aj_box f) l (trace f ++ [(o, e, r)]))) as HL.
      { intros l Hlen Hl. split; [|cbn; by rewrite Hlen]. intros i c Hi.
        destruct (Hl i c Hi) as (c0 & Hi0 & [[-> Hne]|Hr]).
        - specialize (Hc i c0 Hi0). unfold in_box in *. destruct (c_at c0) eqn:Eat; try done. cbn.
          unfold mailbox_open. cbn. rewrite Hk, Eal. cbn. split; [|done].
          destruct (decide (i ∈ b)) as [|Hnb]; [done|]. destruct Hc as [Hin _].
          by destruct (Hne eq_refl (Hb' i Hin Hnb)).
        - unfold in_box. by destruct (c_at c). }
      destruct o as [i|].
      + apply HL; [apply alter_length|]. intros k c Hkc. destruct (decide (k = i)) as [->|Hki].
        * rewrite list_lookup_alter in Hkc. destruct (cs f !! i) as [c0|] eqn:E0; [|done].
          apply (inj Some) in Hkc. exists c0. split; [done|]. subst c.
          destruct (c_at c0) eqn:Eat; [by left|by left|by left|by left|by left| |by left|by left].
          right. apply recv_not_sent.
        * rewrite list_lookup_alter_ne in Hkc by done. exists c. split; [done|]. left. split; [done|].
          intros _ [= E]. by subst.
      + apply HL; [done|]. intros k c Hkc. exists c. split; [done|]. left. done.
    - split; [|split; cbn; [constructor|by rewrite fmap_length]]. cbn. intros i c Hi.
      apply list_lookup_fmap_Some in Hi as (c0 & Hi & ->). specialize (Hc i c0 Hi).
      unfold in_box, orphaned in *. destruct (c_at c0) eqn:E; rewrite ?E; try done.
      pose proof (recv_not_sent (length (trace f ++ [(o, e, r)])) c0 (dead_response (msg_of c0))) as H.
      by destruct (c_at (recv _ _ _)).
  Qed.
  Lemma boxed_cs f i c c' :
    boxed f → cs f !! i = Some c → match c_at c' with MsgSent | InitSent | AtSpawn => False | _ => True end →
    boxed (set_cs f (<[i := c']> (cs f))).
  Proof.
    intros (Hc & Hq & Ha & Hbk) Hi Hc'. split; [|cbn; by rewrite insert_length]. cbn. intros k d Hk.
    apply list_lookup_insert_Some in Hk as [(-> & -> & _)|[_ Hk]]; [|by apply Hc].
    unfold in_box. by destruct (c_at d).
  Qed.
  Lemma boxed_dies f e : boxed (process_dies prof sched name h f e).
  Proof.
    unfold process_dies. destruct (step (q f) e) as [s r]. split; [|split; [by constructor|split; [by constructor|done]]]. cbn.
    intros i c Hi. apply list_lookup_fmap_Some in Hi as (c0 & Hi & ->). unfold in_box, lose_all.
    by destruct (c_at c0) eqn:E; cbn; rewrite ?E.
  Qed.
  Lemma boxed_gone f : boxed f → boxed (aj_gone f).
  Proof.
    intros (Hc & Hq & Ha & Hbk).
    split; [|split; cbn; [by rewrite fmap_length|split; [constructor|done]]]. cbn. intros k d Hk.
    apply list_lookup_fmap_Some in Hk as (d0 & Hk & ->). specialize (Hc k d0 Hk).
    unfold in_box, lose_aj, mailbox_open in *. cbn.
    destruct (c_at d0) eqn:E0; destruct (c_call d0) eqn:E1; cbn; rewrite ?E0; try done.
    all: destruct Hc as [_ [j9 Hj9]]; done.
  Qed.
  Lemma boxed_step f fe : boxed f → boxed (fstep f fe).
  Proof.
    intros (Hc & Hq & Ha & Hbk).
    assert (boxed f) as Hf by (by split).
    assert (∀ l : list nat, Forall (λ i, i < length (cs f))%nat l →
      ∀ c, Forall (λ i, i < length (cs f ++ [c]))%nat l) as Hgrow.
    { intros l Hl c. eapply list.Forall_impl; [exact Hl|]. intros i. cbn. intros Hi. rewrite app_length. cbn. lia. }
    destruct fe as [c|i| | | | |e| |o k]; cbn [Client.fstep].
    - assert (∀ c', c_at c' = AtLookup ∨ c_at c' = Gone → boxed (set_cs f (cs f ++ [c']))) as H1.
      { intros c' Hc'. split; [|split; [by apply Hgrow|split; [by apply Hgrow|done]]]. cbn. intros i d Hi.
        apply lookup_app_Some in Hi as [Hi|[_ Hi]]; [by apply Hc|].
        apply list_lookup_singleton_Some in Hi as [_ <-]. unfold in_box. by destruct Hc' as [->| ->]. }
      destruct c; try (apply H1; by left).
      destruct (aj_up f); [|apply H1; by right].
      split; [|split; cbn; [by apply Hgrow|split; [|done]]].
      + cbn. intros i d Hi. apply lookup_app_Some in Hi as [Hi|[Hl Hi]].
        * specialize (Hc i d Hi). unfold in_box in *. cbn. destruct (c_at d); try done; rewrite elem_of_app; naive_solver.
        * apply list_lookup_singleton_Some in Hi as [Hi <-]. unfold in_box. cbn.
          rewrite elem_of_app, elem_of_list_singleton. split; [right; lia|eauto].
      + apply Forall_app. split; [by apply Hgrow|]. constructor; [|done]. rewrite app_length. cbn. lia.
    - destruct (cs f !! i) as [c|] eqn:Ei; [|done]. pose proof (lookup_lt_Some _ _ _ Ei) as Hlt.
      destruct (c_at c) eqn:Eat; try done.
      + destruct (known f); [by eapply boxed_cs|]. destruct (inits c); [by eapply boxed_cs|].
        eapply boxed_cs; [done|done|]. pose proof (recv_not_sent (length (trace f)) c (no_queue c)) as H.
        by destruct (c_at (recv _ _ _)).
      + destruct (aj_up f); [|by eapply boxed_cs]. split; [|split; cbn; rewrite insert_length; [done|split; [|done]]].
        * cbn. intros k d Hk. apply list_lookup_insert_Some in Hk as [(-> & <- & _)|[_ Hk]].
          -- unfold in_box. cbn. rewrite elem_of_app, elem_of_list_singleton. by right.
          -- specialize (Hc k d Hk). unfold in_box in *. cbn. destruct (c_at d); try done; rewrite elem_of_app; naive_solver.
        * apply Forall_app. split; [done|]. by constructor.
      + destruct (mailbox_open f) eqn:Em.
        2: { eapply boxed_cs; [done|done|].
             pose proof (recv_not_sent (length (trace f)) c (dead_response (msg_of c))) as H.
             by destruct (c_at (recv _ _ _)). }
        split; [|split; cbn; rewrite insert_length; [|done]].
        * cbn. intros k d Hk. apply list_lookup_insert_Some in Hk as [(-> & <- & _)|[_ Hk]].
          -- unfold in_box. cbn. rewrite elem_of_app, elem_of_list_singleton. split; [by right|done].
          -- specialize (Hc k d Hk). unfold in_box in *. cbn. destruct (c_at d); try done.
             rewrite elem_of_app. destruct Hc. split; [by left|done].
        * apply Forall_app. split; [done|]. by constructor.
    - destruct (aj_box f) as [|i b] eqn:Eb; [done|]. destruct (cs f !! i) as [c|] eqn:Ei.
      2: { apply lookup_ge_None in Ei. apply List.Forall_cons_iff in Ha as [Ha _]. lia. }
      apply List.Forall_cons_iff in Ha as [_ Ha].
      assert (∀ kn bg c', (kn = known f ∧ bg = begun f ∨ kn = true ∧ bg = false ∧ known f = false) →
        match c_at c' with MsgSent | InitSent | AtSpawn => False | _ => True end →
        boxed (Front (q f) kn bg (q_box f) (aj_up f) b (<[i := c']> (cs f)) (trace f))) as H1.
      { intros kn bg c' Hkn Hc'. split; [|cbn; rewrite insert_length; split; [done|split; [done|]]].
        2: { by destruct Hkn as [[-> ->]|(-> & -> & Hkn)]. }
        cbn. intros k d Hk.
        apply list_lookup_insert_Some in Hk as [(-> & -> & _)|[Hne Hk]].
        - unfold in_box. by destruct (c_at d).
        - specialize (Hc k d Hk). unfold in_box, mailbox_open in *. cbn. rewrite Eb in Hc.
          destruct (c_at d); try done.
          + destruct Hc as [[->|Hc]%elem_of_cons Hj]; [done|done].
          + apply elem_of_cons in Hc as [->|Hc]; [done|done].
          + destruct Hc as [Hc Ho]. split; [done|]. destruct Hkn as [[-> ->]|(-> & -> & Hkn)]; [done|].
            by rewrite Hkn in Ho. }
      assert (c_at c ≠ AtSpawn → c_at c ≠ InitSent →
        boxed (Front (q f) (known f) (begun f) (q_box f) (aj_up f) b (cs f) (trace f))) as H2.
      { intros N1 N2. split; [|done]. cbn. intros k d Hk. pose proof (Hc k d Hk) as Hck.
        unfold in_box, mailbox_open in *. cbn. rewrite Eb in Hck. destruct (c_at d) eqn:Ed; try done.
        - destruct Hck as [[->|Hck]%elem_of_cons Hj]; [congruence|done].
        - apply elem_of_cons in Hck as [->|Hck]; [congruence|done]. }
      destruct (c_at c) eqn:Eat; try (by apply H2).
      + apply H1; [by left|done].
      + destruct (known f) eqn:Ek; [by apply boxed_gone|apply H1; [right; done|done]].
    - by apply boxed_gone.
    - destruct (known f && negb (begun f)) eqn:E; [|done]. apply andb_true_iff in E as [Ek _].
      by apply boxed_qstep.
    - destruct (q_box f) as [|i b] eqn:Eb; [done|]. destruct (cs f !! i) as [c|] eqn:Ei; [|done].
      destruct (begun f && alive (q f)) eqn:E; [|done]. apply andb_true_iff in E as [Ek _].
      apply boxed_qstep; [done| | |by apply Hbk].
      + intros k Hk. rewrite Eb. by right.
      + intros k Hk Hnk. rewrite Eb in Hk. apply elem_of_cons in Hk as [->|Hk]; done.
    - destruct (begun f && alive (q f) && own_event e) eqn:E; [|done].
      apply andb_true_iff in E as [[Ek _]%andb_true_iff _]. apply boxed_qstep; [done|done|done|by apply Hbk].
    - apply boxed_dies.
    - destruct o as [e|].
      + destruct (_ || _); [apply boxed_dies|done].
      + destruct (q_box f) as [|i b]; [done|]. destruct (cs f !! i) as [c|]; [|done].
        destruct (begun f); [apply boxed_dies|done].
  Qed.
  Lemma boxed_run f fs : boxed f → boxed (frun f fs).
  Proof. revert f; induction fs as [|fe fs IH]; intros f Hf; [done|]. cbn. by apply IH, boxed_step. Qed.
  Lemma boxed_init w : boxed (front_init w).
  Proof. split; [done|]. split; [constructor|]. split; [constructor|done]. Qed.

  (** What is left of a call. *)
  Definition stage c : nat := match c_call c, c_upd c with CUpdate _ _ _, None => 10 | _, _ => 0 end.
  Definition rank c : nat :=
    (stage c + match c_at c with
     | AtSpawn => 6 | AtLookup => 5 | AtInit => 4 | InitSent => 3 | AtSend => 2 | MsgSent => 1 | _ => 0 end)%nat.
  Definition is_over c : bool := match c_at c with Returned _ _ | Gone => true | _ => false end.
  Lemma rank_recv n c r : c_at c = MsgSent ∨ c_at c = AtLookup ∨ c_at c = AtSend →
    is_over (recv n c r) = true ∨ (rank (recv n c r) < rank c)%nat.
  Proof.
    unfold recv, rank, stage, is_over. destruct c as [cl u p fr]. cbn.
    intros Hp. destruct cl, u; cbn; auto. destruct r as [| |[j|]|]; cbn; auto.
    right. destruct Hp as [->|[->| ->]]; lia.
  Qed.
  Definition closer f (i : nat) c : Prop :=
    ∃ fs c', Forall serves fs ∧ cs (frun f fs) !! i = Some c' ∧
      (is_over c' = true ∨ (rank c' < rank c)%nat).

  Lemma orphaned_closer n c : c_at c = MsgSent →
    is_over (orphaned n c) = true ∨ (rank (orphaned n c) < rank c)%nat.
  Proof. intros E. unfold orphaned. rewrite E. apply rank_recv. auto. Qed.

  Lemma q_drains b : ∀ f i c,
    boxed f → q_box f = b → cs f !! i = Some c → c_at c = MsgSent → begun f = true → closer f i c.
  Proof.
    induction b as [|k b IH]; intros f i c Hf Eb Ei Eat Hbg.
    - destruct Hf as (Hc & _). specialize (Hc i c Ei). unfold in_box in Hc. rewrite Eat, Eb in Hc.
      destruct Hc as [?%elem_of_nil _]. done.
    - pose proof Hf as (Hc & Hq & _ & Hbk). rewrite Eb in Hq. apply List.Forall_cons_iff in Hq as [Hk _].
      apply lookup_lt_is_Some in Hk as [d Hk].
      pose proof (Hc i c Ei) as Hci. unfold in_box in Hci. rewrite Eat in Hci. destruct Hci as [_ Ho].
      unfold mailbox_open in Ho. rewrite Hbg in Ho. apply andb_true_iff in Ho as [Hkn Hal]. cbn in Hal.
      assert (fstep f FHandle = qstep f (Some k) b (msg_of d)) as E.
      { cbn [Client.fstep]. by rewrite Eb, Hk, Hbg, Hal. }
      pose proof (boxed_step f FHandle Hf) as Hf'. rewrite E in Hf'.
      assert (∃ c', cs (qstep f (Some k) b (msg_of d)) !! i = Some c' ∧
        ((is_over c' = true ∨ (rank c' < rank c)%nat) ∨
         c' = c ∧ q_box (qstep f (Some k) b (msg_of d)) = b ∧
         begun (qstep f (Some k) b (msg_of d)) = true)) as (c' & Ei' & H).
      { unfold queue_step, settle. destruct (step (q f) (msg_of d)) as [s r]. destruct (alive s); cbn.
        - destruct (decide (i = k)) as [->|Hne].
          + rewrite list_lookup_alter, Ei. cbn. eexists. split; [done|]. rewrite Eat. left.
            apply rank_recv. auto.
          + rewrite list_lookup_alter_ne by done. exists c. split; [done|]. by right.
        - rewrite list_lookup_fmap, Ei. eexists. split; [done|]. left. by apply orphaned_closer. }
      destruct H as [H|(-> & Eb' & Hbg')].
      + exists [FHandle], c'. split; [by repeat constructor|]. cbn [front_run fold_left]. rewrite E. done.
      + destruct (IH _ i c Hf' Eb' Ei' Eat Hbg') as (fs & c'' & Hfs & Hx & Hr).
        exists (FHandle :: fs), c''. split; [by constructor|]. cbn [front_run fold_left]. rewrite E. done.
  Qed.
  Lemma closer_after f fs i c c1 :
    Forall serves fs → cs (frun f fs) !! i = Some c1 → (is_over c1 = true ∨ (rank c1 <= rank c)%nat) →
    (is_over c1 = false → closer (frun f fs) i c1) → closer f i c.
  Proof.
    intros Hfs E Hr Hcl. destruct (is_over c1) eqn:Ho.
    - exists fs, c1. split; [done|]. split; [done|]. by left.
    - destruct (Hcl eq_refl) as (fs' & c2 & Hfs' & E2 & Hr2). exists (fs ++ fs'), c2.
      split; [by apply Forall_app|]. split; [unfold front_run in *; by rewrite fold_left_app|].
      destruct Hr2 as [|Hr2]; [by left|]. right. destruct Hr as [Hr|Hr]; [done|lia].
  Qed.
  Lemma aj_drains b : ∀ f i c,
    boxed f → aj_box f = b → cs f !! i = Some c → c_at c = AtSpawn ∨ c_at c = InitSent → closer f i c.
  Proof.
    induction b as [|k b IH]; intros f i c Hf Eb Ei Eat.
    - destruct Hf as (Hc & _). specialize (Hc i c Ei). unfold in_box in Hc. rewrite Eb in Hc.
      destruct Eat as [Eat|Eat]; rewrite Eat in Hc; [destruct Hc as [Hc _]|]; by apply elem_of_nil in Hc.
    - pose proof Hf as (Hc & _ & Ha & Hbk). rewrite Eb in Ha. apply List.Forall_cons_iff in Ha as [Hk _].
      apply lookup_lt_is_Some in Hk as [d Hk]. pose proof (boxed_step f FAj Hf) as Hf'.
      assert (∃ c', cs (fstep f FAj) !! i = Some c' ∧
        ((is_over c' = true ∨ (rank c' < rank c)%nat) ∨ c' = c ∧ aj_box (fstep f FAj) = b)) as (c' & Ei' & H).
      { cbn [Client.fstep]. rewrite Eb, Hk.
        assert (∀ c', (i = k → is_over c' = true ∨ (rank c' < rank c)%nat) →
          ∃ c'', <[k:=c']> (cs f) !! i = Some c'' ∧
            ((is_over c'' = true ∨ (rank c'' < rank c)%nat) ∨ c'' = c ∧ b = b)) as HI.
        { intros c' Hc'. destruct (decide (i = k)) as [->|Hne].
          - rewrite list_lookup_insert by (by eapply lookup_lt_Some). eexists. split; [done|]. left. by apply Hc'.
          - rewrite list_lookup_insert_ne by done. exists c. split; [done|]. by right. }
        destruct (c_at d) eqn:Ed.
        2,3,5-8: exists c; split; [done|by right].
        - apply HI. intros ->. rewrite Ei in Hk. apply (inj Some) in Hk as ->.
          right. unfold rank, stage. rewrite Ed. cbn. lia.
        - destruct (known f).
          + cbn. rewrite list_lookup_fmap, Ei. eexists. split; [done|]. left. left.
            specialize (Hc i c Ei). unfold lose_aj, in_box in *.
            destruct Eat as [Eat|Eat]; rewrite Eat in *; [destruct Hc as [_ [j ->]]; done|]. by destruct (c_call c).
          + apply HI. intros ->. rewrite Ei in Hk. apply (inj Some) in Hk as ->.
            right. unfold rank, stage. rewrite Ed. cbn. lia. }
      destruct H as [H|[-> Eb']].
      + exists [FAj], c'. split; [by repeat constructor|]. done.
      + apply (closer_after f [FAj] i c c); [by repeat constructor|done|by right|].
        intros _. by apply IH.
  Qed.
  Lemma one_closer f i c fe c' :
    serves fe → cs (fstep f fe) !! i = Some c' → is_over c' = true ∨ (rank c' < rank c)%nat → closer f i c.
  Proof. intros Hs Hi Hr. exists [fe], c'. split; [by repeat constructor|]. done. Qed.

  Lemma gets_closer f i c : boxed f → cs f !! i = Some c → is_over c = false → closer f i c.
  Proof.
    intros Hf Ei Ho. pose proof (lookup_lt_Some _ _ _ Ei) as Hlt.
    destruct (c_at c) eqn:Eat; try (unfold is_over in Ho; rewrite Eat in Ho; discriminate Ho).
    - eapply aj_drains; eauto.
    - destruct (known f) eqn:Ek; [|destruct (inits c) eqn:Ein].
      + eapply (one_closer f i c (FGo i)); [done| |].
        { cbn [Client.fstep]. rewrite Ei, Eat, Ek. cbn. by rewrite list_lookup_insert. }
        right. unfold rank, stage. rewrite Eat. cbn. lia.
      + eapply (one_closer f i c (FGo i)); [done| |].
        { cbn [Client.fstep]. rewrite Ei, Eat, Ek, Ein. cbn. by rewrite list_lookup_insert. }
        right. unfold rank, stage. rewrite Eat. cbn. lia.
      + eapply (one_closer f i c (FGo i)); [done| |].
        { cbn [Client.fstep]. rewrite Ei, Eat, Ek, Ein. cbn. by rewrite list_lookup_insert. }
        apply rank_recv. auto.
    - destruct (aj_up f) eqn:Eu.
      + eapply (one_closer f i c (FGo i)); [done| |].
        { cbn [Client.fstep]. rewrite Ei, Eat, Eu. cbn. by rewrite list_lookup_insert. }
        right. unfold rank, stage. rewrite Eat. cbn. lia.
      + eapply (one_closer f i c (FGo i)); [done| |].
        { cbn [Client.fstep]. rewrite Ei, Eat, Eu. cbn. by rewrite list_lookup_insert. }
        by left.
    - eapply aj_drains; eauto.
    - destruct (mailbox_open f) eqn:Em.
      + eapply (one_closer f i c (FGo i)); [done| |].
        { cbn [Client.fstep]. rewrite Ei, Eat, Em. cbn. by rewrite list_lookup_insert. }
        right. unfold rank, stage. rewrite Eat. cbn. lia.
      + eapply (one_closer f i c (FGo i)); [done| |].
        { cbn [Client.fstep]. rewrite Ei, Eat, Em. cbn. by rewrite list_lookup_insert. }
        apply rank_recv. auto.
    - destruct (begun f) eqn:Ebg; [by eapply q_drains|].
      pose proof Hf as (Hc & _). specialize (Hc i c Ei). unfold in_box, mailbox_open in Hc. rewrite Eat, Ebg in Hc.
      destruct Hc as [_ [Hkn _]%andb_true_iff].
      assert (fstep f FBegin = qstep f None (q_box f) EvStart) as E.
      { cbn [Client.fstep]. by rewrite Hkn, Ebg. }
      pose proof (boxed_step f FBegin Hf) as Hf'.
      assert (begun (fstep f FBegin) = true ∧ ∃ c', cs (fstep f FBegin) !! i = Some c' ∧
        ((is_over c' = true ∨ (rank c' < rank c)%nat) ∨ c' = c)) as (Hbg' & c' & Ei' & H).
      { rewrite E. unfold queue_step, settle. destruct (step (q f) EvStart) as [s r]. destruct (alive s); cbn.
        - split; [done|]. exists c. split; [done|]. by right.
        - split; [done|]. rewrite list_lookup_fmap, Ei. eexists. split; [done|]. left. by apply orphaned_closer. }
      destruct H as [H| ->].
      + exists [FBegin], c'. split; [by repeat constructor|]. done.
      + apply (closer_after f [FBegin] i c c); [by repeat constructor|done|by right|].
        intros _. by eapply q_drains.
  Qed.
  Lemma all_over n : ∀ f i c, boxed f → cs f !! i = Some c → (rank c < n)%nat →
    ∃ fs c', Forall serves fs ∧ cs (frun f fs) !! i = Some c' ∧ is_over c' = true.
  Proof.
    induction n as [|n IH]; intros f i c Hf Ei Hr; [lia|].
    destruct (is_over c) eqn:Ho; [exists [], c; split; [constructor|done]|].
    destruct (gets_closer f i c Hf Ei Ho) as (fs & c1 & Hfs & E1 & H).
    destruct H as [H|H]; [exists fs, c1; done|].
    destruct (IH (frun f fs) i c1) as (fs' & c2 & Hfs' & E2 & H2); [by apply boxed_run|done|lia|].
    exists (fs ++ fs'), c2. split; [by apply Forall_app|]. split; [|done].
    unfold front_run in *. by rewrite fold_left_app.
  Qed.
  Lemma answered w fs i c :
    cs (frun (front_init w) fs) !! i = Some c →
    ∃ fs' c', Forall serves fs' ∧ cs (frun (front_init w) (fs ++ fs')) !! i = Some c' ∧
      (c_at c' = Gone ∨ ∃ r to, c_at c' = Returned r to).
  Proof.
    intros Ei. destruct (all_over (S (rank c)) (frun (front_init w) fs) i c) as (fs' & c' & Hfs & E & Ho).
    - apply boxed_run, boxed_init.
    - done.
    - lia.
    - exists fs', c'. split; [done|]. unfold front_run in *. rewrite fold_left_app. split; [done|].
      unfold is_over in Ho. destruct (c_at c'); try discriminate Ho; eauto.
  Qed.
End client.
