(** Fair endless executions: every call comes to its end. *)
From Verif Require Import SpecEnd ClientFacts ClientProgress.

Section answered.
  Context {M : Type} `{SM : Serde M}.
  Context (prof : profile).
  Context (sched : string → option (time → option time)).
  Context (name : string).
  Context {W : Type} (h : handler W).
  Notation step := (sys_step prof sched name h).
  Notation fstep := (fstep prof sched name h).
  Notation qstep := (queue_step prof sched name h).
  Implicit Types (f : front M W) (c : cstate M).

  (** How many messages are before that of call [i]. *)
  Fixpoint pos (i : nat) (l : list nat) : nat :=
    match l with [] => 0 | k :: l => if decide (k = i) then 0 else S (pos i l) end%nat.
  Lemma pos_app i l l' : i ∈ l → pos i (l ++ l') = pos i l.
  Proof.
    induction l as [|k l IH]; [by intros ?%elem_of_nil|]. intros Hi. cbn. destruct (decide (k = i)); [done|].
    rewrite IH; [done|]. apply elem_of_cons in Hi as [->|Hi]; done.
  Qed.
  Definition place_in f i c : nat :=
    match c_at c with AtSpawn | InitSent => pos i (aj_box f) | MsgSent => pos i (q_box f) | _ => 0 end.
  (** The event that helps. *)
  Definition helps f i c (x : fevent M) : bool :=
    match c_at c, x with
    | (AtSpawn | InitSent), FAj => true
    | (AtLookup | AtInit | AtSend), FGo k => bool_decide (k = i)
    | MsgSent, FBegin => negb (begun f)
    | MsgSent, FHandle => begun f
    | _, _ => false
    end.
  Definition nearer f i c (x : fevent M) f' c' : Prop :=
    is_over c' = true ∨ (rank c' < rank c)%nat ∨
    c' = c ∧ (begun f = false ∧ begun f' = true ∧ c_at c = MsgSent ∨
              (begun f' = begun f ∨ c_at c ≠ MsgSent) ∧ (place_in f' i c <= place_in f i c)%nat ∧
              (helps f i c x = true → (place_in f' i c < place_in f i c)%nat)).

  Lemma at_msg c : c_at c = MsgSent ∨ c_at c ≠ MsgSent.
  Proof. destruct (c_at c); by (left + right). Qed.
  Lemma near_orphaned f i c x f' n : c_at c = MsgSent → nearer f i c x f' (orphaned n c).
  Proof. intros E. destruct (orphaned_closer n c E); [by left|right; by left]. Qed.
  Lemma near_qstep f o b e i c x :
    cs f !! i = Some c → is_over c = false →
    (c_at c = MsgSent → i ∈ q_box f) → 
    (o = None ∧ b = q_box f ∧ (helps f i c x = true → begun f = false ∧ c_at c = MsgSent) ∨
     ∃ k, o = Some k ∧ q_box f = k :: b ∧ begun f = true ∧ x = FHandle) →
    ∃ c', cs (qstep f o b e) !! i = Some c' ∧ nearer f i c x (qstep f o b e) c'.
  Proof.
    intros Ei Ho Hq Hb. unfold queue_step, settle. destruct (step (q f) e) as [s r].
    set (tr := trace f ++ [(o, e, r)]).
    destruct (alive s); cbn [cs].
    - destruct Hb as [(-> & -> & Hh)|(k & -> & Eb & Hbg & ->)].
      + exists c. split; [done|]. right. right. split; [done|]. cbn [begun q_box aj_box].
        destruct (at_msg c) as [Em|Em].
        * destruct (begun f) eqn:Ebg; [|by left]. right. split; [by left|]. unfold place_in. cbn.
          split; [done|]. intros H. by destruct (Hh H).
        * right. split; [by right|]. unfold place_in. cbn. split; [done|]. intros H. by destruct (Hh H).
      + destruct (decide (k = i)) as [->|Hne].
        * rewrite list_lookup_alter, Ei. cbn. eexists. split; [done|].
          destruct (c_at c) eqn:Eat.
          6: { destruct (rank_recv (length tr) c r) as [H|H]; [by left|by left|by (right; left)]. }
          all: right; right; split; [done|]; right; (split; [right; congruence|]); unfold place_in, helps; rewrite Eat;
            cbn; done.
        * rewrite list_lookup_alter_ne by done. exists c. split; [done|]. right. right. split; [done|]. right.
          split; [left; cbn; congruence|]. unfold place_in, helps. cbn. destruct (c_at c) eqn:Eat; try done.
          rewrite Eb. cbn. destruct (decide (k = i)); [done|]. lia.
    - rewrite list_lookup_fmap, Ei. eexists. split; [done|].
      destruct (at_msg c) as [Em|Em]; [by apply near_orphaned|].
      assert (orphaned (length tr) c = c) as -> by (unfold orphaned; by destruct (c_at c)).
      right. right. split; [done|]. right. split; [by right|]. unfold place_in, helps. cbn.
      destruct (c_at c) eqn:Eat; try done.
      all: destruct Hb as [(-> & -> & Hh)|(k & -> & Eb & Hbg & ->)]; (split; [done|]); try done.
      all: intros H; unfold helps in Hh; rewrite Eat in Hh; try (by destruct (Hh H)).
  Qed.
  Lemma near_same f i c x f' :
    begun f' = begun f → (place_in f' i c <= place_in f i c)%nat → helps f i c x = false → nearer f i c x f' c.
  Proof. intros H1 H2 H3. right. right. split; [done|]. right. split; [by left|]. split; [done|]. by rewrite H3. Qed.
  Lemma near_dies f e i c :
    cs f !! i = Some c → ∃ c', cs (process_dies prof sched name h f e) !! i = Some c' ∧ is_over c' = true.
  Proof.
    intros Ei. unfold process_dies. destruct (step (q f) e). cbn. rewrite list_lookup_fmap, Ei. eexists. split; [done|].
    unfold lose_all, is_over. by destruct (c_at c) eqn:E; cbn; rewrite ?E.
  Qed.
  Lemma near_gone f i c x :
    boxed f → cs f !! i = Some c → is_over c = false → (c_at c = AtSpawn ∨ c_at c = InitSent ∨ helps f i c x = false) →
    ∃ c', cs (aj_gone f) !! i = Some c' ∧ nearer f i c x (aj_gone f) c'.
  Proof.
    intros (Hc & _) Ei Ho Hh. cbn. rewrite list_lookup_fmap, Ei. eexists. split; [done|].
    specialize (Hc i c Ei). unfold in_box in Hc.
    assert (c_at c = AtSpawn ∨ c_at c = InitSent ∨ (∃ j, c_call c = CJust j) →
      is_over (lose_aj (length (trace f)) c) = true) as H1.
    { unfold lose_aj, is_over in *. intros [E|[E|[j E]]]; rewrite E in *.
      - destruct Hc as [_ [j ->]]. done.
      - by destruct (c_call c).
      - by destruct (c_at c) eqn:Ea; cbn; rewrite ?Ea. }
    destruct (is_over (lose_aj (length (trace f)) c)) eqn:E1; [by left|].
    assert (lose_aj (length (trace f)) c = c) as ->.
    { unfold lose_aj in *. destruct (c_at c) eqn:Ea; try done; destruct (c_call c) eqn:Ec; try done.
      all: unfold is_over in E1; try (cbn in E1; discriminate E1). all: discriminate H1; eauto. }
    assert (c_at c ≠ AtSpawn ∧ c_at c ≠ InitSent) as [N1 N2].
    { split; intros E; discriminate H1; tauto. }
    apply near_same; [done| |].
    - unfold place_in. by destruct (c_at c).
    - naive_solver.
  Qed.

  Lemma nearer_step f i c x :
    boxed f → cs f !! i = Some c → is_over c = false →
    ∃ c', cs (fstep f x) !! i = Some c' ∧ nearer f i c x (fstep f x) c'.
  Proof.
    intros Hf Ei Ho. pose proof Hf as (Hc & Hq & Ha & Hbk). pose proof (lookup_lt_Some _ _ _ Ei) as Hlt.
    pose proof (Hc i c Ei) as Hci. unfold in_box in Hci.
    assert (helps f i c x = false → nearer f i c x f c) as Hsame.
    { intros H. by apply near_same. }
    assert (∀ k (c1 c' : cstate M) f', cs f !! k = Some c1 → cs f' = <[k := c']> (cs f) → begun f' = begun f →
      (c_at c = MsgSent → place_in f' i c <= place_in f i c)%nat →
      (c_at c = AtSpawn ∨ c_at c = InitSent → place_in f' i c <= place_in f i c)%nat →
      (i ≠ k → helps f i c x = false) →
      (i = k → is_over c' = true ∨ (rank c' < rank c)%nat) →
      ∃ c'', cs f' !! i = Some c'' ∧ nearer f i c x f' c'') as HI.
    { intros k c1 c' f' Ek Ecs Eb Hp1 Hp2 Hh Hr. rewrite Ecs. destruct (decide (i = k)) as [->|Hne].
      - rewrite list_lookup_insert by done. eexists. split; [done|]. destruct (Hr eq_refl); [by left|by right; left].
      - rewrite list_lookup_insert_ne by done. exists c. split; [done|]. apply near_same; [done| |by apply Hh].
        unfold place_in in *. destruct (c_at c); auto. }
    destruct x as [c0|k| | | | |e| |o k]; cbn [Client.fstep].
    - assert (helps f i c (FCall c0) = false) as Hh by (unfold helps; by destruct (c_at c)).
      assert (∀ l, cs (set_cs f (cs f ++ l)) !! i = Some c) as Hl by (intros l; cbn; by apply lookup_app_l_Some).
      assert (∀ l, nearer f i c (FCall c0) (set_cs f l) c) as Hn by (intros l; by apply near_same).
      destruct c0; try (eexists; split; [apply Hl|apply Hn]).
      destruct (aj_up f); [|eexists; split; [apply Hl|apply Hn]].
      eexists. cbn. split; [by apply lookup_app_l_Some|]. apply near_same; [done| |done].
      unfold place_in in *. cbn. destruct (c_at c); try lia; rewrite pos_app; try lia; tauto.
    - destruct (cs f !! k) as [c1|] eqn:Ek.
      2: { exists c. split; [done|]. apply Hsame. unfold helps. destruct (c_at c); try done; apply bool_decide_eq_false; congruence. }
      assert (∀ c', c_at c' = Gone ∨ (∃ r to, c_at c' = Returned r to) ∨ (i = k → rank c' < rank c)%nat →
        ∃ c'', cs (set_cs f (<[k := c']> (cs f))) !! i = Some c'' ∧ nearer f i c (FGo k) (set_cs f (<[k:=c']> (cs f))) c'') as HS.
      { intros c' Hr. eapply (HI k c1 c'); try done.
        - intros Hne. unfold helps. destruct (c_at c); try done; apply bool_decide_eq_false; congruence.
        - intros ->. destruct Hr as [Hr|[(r & to & Hr)|Hr]]; [left|left|right; auto]; unfold is_over; by rewrite Hr. }
      assert (c_at c1 = AtSpawn ∨ c_at c1 = InitSent ∨ c_at c1 = MsgSent ∨ is_over c1 = true → nearer f i c (FGo k) f c) as HN.
      { intros H. apply Hsame. unfold helps, is_over in *. destruct (c_at c) eqn:E; try done; apply bool_decide_eq_false; intros ->;
          rewrite Ei in Ek; injection Ek as <-; rewrite E in H; naive_solver. }
      assert (∀ r, c_at c1 = AtLookup ∨ c_at c1 = AtSend → 
        ∃ c'', cs (set_cs f (<[k := recv (length (trace f)) c1 r]> (cs f))) !! i = Some c'' ∧
          nearer f i c (FGo k) (set_cs f (<[k:=recv (length (trace f)) c1 r]> (cs f))) c'') as HR.
      { intros r Hat. eapply (HI k c1 (recv (length (trace f)) c1 r)); try done.
        - intros Hne. unfold helps. destruct (c_at c); try done; apply bool_decide_eq_false; congruence.
        - intros ->. rewrite Ei in Ek. injection Ek as <-. apply rank_recv. tauto. }
      assert (∀ p, (rank (goto c1 p) < rank c1)%nat → (i = k → rank (goto c1 p) < rank c)%nat) as HG.
      { intros p Hp ->. rewrite Ei in Ek. by injection Ek as <-. }
      destruct (c_at c1) eqn:Eat.
      1,4,6: by exists c; split; [done|apply HN; auto].
      4,5: by exists c; split; [done|apply HN; right; right; right; unfold is_over; by rewrite Eat].
      + destruct (known f); [|destruct (inits c1)].
        * apply HS. right. right. apply HG. unfold rank, stage. rewrite Eat. cbn. lia.
        * apply HS. right. right. apply HG. unfold rank, stage. rewrite Eat. cbn. lia.
        * apply HR. auto.
      + destruct (aj_up f).
        * eapply (HI k c1 (goto c1 InitSent)); try done.
          -- intros H. unfold place_in in *. rewrite H in *. cbn. lia.
          -- intros H. unfold place_in in *. cbn. destruct H as [H|H]; rewrite H in *; rewrite pos_app; try lia; tauto.
          -- intros Hne. unfold helps. destruct (c_at c); try done; apply bool_decide_eq_false; congruence.
          -- intros E. right. apply HG; [|done]. unfold rank, stage. rewrite Eat. cbn. lia.
        * apply HS. right. left. eauto.
      + destruct (mailbox_open f).
        * eapply (HI k c1 (goto c1 MsgSent)); try done.
          -- intros H. unfold place_in in *. rewrite H in *. cbn. rewrite pos_app; [lia|tauto].
          -- intros H. unfold place_in in *. cbn. destruct H as [H|H]; rewrite H in *; lia.
          -- intros Hne. unfold helps. destruct (c_at c); try done; apply bool_decide_eq_false; congruence.
          -- intros E. right. apply HG; [|done]. unfold rank, stage. rewrite Eat. cbn. lia.
        * apply HR. auto.
    - destruct (aj_box f) as [|k b] eqn:Eb.
      { exists c. split; [done|]. apply Hsame. unfold helps. destruct (c_at c); try done.
        - by destruct Hci as [?%elem_of_nil _].
        - by apply elem_of_nil in Hci. }
      apply Forall_cons_1 in Ha as [Hk _]. apply lookup_lt_is_Some in Hk as [c1 Ek]. rewrite Ek.
      (* the message of another call goes out of the mailbox *)
      assert (∀ f', aj_box f' = b → begun f' = begun f ∨ begun f = false ∧ c_at c ≠ MsgSent → q_box f' = q_box f → i ≠ k →
        nearer f i c FAj f' c) as HO.
      { intros f' E1 E2 E3 Hne. right. right. split; [done|]. right. split; [tauto|].
        unfold place_in, helps. rewrite E1, E3, Eb. cbn. destruct (decide (k = i)); [congruence|].
        destruct (c_at c); try done; lia. }
      assert (∀ c' kn bg, (bg = begun f ∨ known f = false ∧ bg = false) → (rank c' < rank c1)%nat →
        ∃ c'', cs (Front (q f) kn bg (q_box f) (aj_up f) b (<[k:=c']> (cs f)) (trace f)) !! i = Some c'' ∧
          nearer f i c FAj (Front (q f) kn bg (q_box f) (aj_up f) b (<[k:=c']> (cs f)) (trace f)) c'') as HB.
      { intros c' kn bg Hbg Hr. cbn [cs]. destruct (decide (i = k)) as [->|Hne].
        - rewrite list_lookup_insert by done. eexists. split; [done|]. right. left. rewrite Ei in Ek. by injection Ek as <-.
        - rewrite list_lookup_insert_ne by done. exists c. split; [done|]. apply HO; try done. cbn.
          destruct Hbg as [->|[Hkn ->]]; [by left|]. left. destruct (begun f); [|done]. by rewrite Hbk in Hkn. }
      destruct (c_at c1) eqn:Eat.
      + apply HB; [by left|]. unfold rank, stage. rewrite Eat. cbn. lia.
      + exists c. split; [done|]. destruct (decide (i = k)) as [->|Hne]; [|apply HO; auto].
        rewrite Ei in Ek. injection Ek as <-. apply near_same; [done| |]; unfold place_in, helps; rewrite Eat; done.
      + exists c. split; [done|]. destruct (decide (i = k)) as [->|Hne]; [|apply HO; auto].
        rewrite Ei in Ek. injection Ek as <-. apply near_same; [done| |]; unfold place_in, helps; rewrite Eat; done.
      + destruct (known f) eqn:Ekn.
        * apply near_gone; [done|done|done|]. unfold helps. destruct (c_at c); auto.
        * apply HB; [by right|]. unfold rank, stage. rewrite Eat. cbn. lia.
      + exists c. split; [done|]. destruct (decide (i = k)) as [->|Hne]; [|apply HO; auto].
        rewrite Ei in Ek. injection Ek as <-. apply near_same; [done| |]; unfold place_in, helps; rewrite Eat; done.
      + exists c. split; [done|]. destruct (decide (i = k)) as [->|Hne]; [|apply HO; auto].
        rewrite Ei in Ek. injection Ek as <-. apply near_same; [done| |]; unfold place_in, helps; rewrite Eat; done.
      + exists c. split; [done|]. destruct (decide (i = k)) as [->|Hne]; [|apply HO; auto].
        rewrite Ei in Ek. injection Ek as <-. unfold is_over in Ho. by rewrite Eat in Ho.
      + exists c. split; [done|]. destruct (decide (i = k)) as [->|Hne]; [|apply HO; auto].
        rewrite Ei in Ek. injection Ek as <-. unfold is_over in Ho. by rewrite Eat in Ho.
    - apply near_gone; [done|done|done|]. unfold helps. destruct (c_at c); auto.
    - destruct (known f && negb (begun f)) eqn:E.
      + apply andb_true_iff in E as [Ekn Eb%negb_true_iff]. apply near_qstep; [done|done| |].
        * intros H. rewrite H in Hci. tauto.
        * left. split; [done|]. split; [done|]. unfold helps. by destruct (c_at c).
      + exists c. split; [done|]. apply Hsame. unfold helps. destruct (c_at c) eqn:Eat; try done.
        destruct Hci as [_ Hop]. unfold mailbox_open in Hop. apply andb_true_iff in Hop as [Hkn _].
        by rewrite Hkn in E.
    - assert (begun f = false ∨ c_at c ≠ MsgSent → nearer f i c FHandle f c) as HN.
      { intros H. apply Hsame. unfold helps. destruct (c_at c); try done. destruct H; [done|congruence]. }
      destruct (q_box f) as [|k b] eqn:Eb.
      { exists c. split; [done|]. apply HN. right. intros E. rewrite E in Hci. by destruct Hci as [?%elem_of_nil _]. }
      apply Forall_cons_1 in Hq as [Hk _]. apply lookup_lt_is_Some in Hk as [c1 Ek]. rewrite Ek.
      destruct (begun f && alive (q f)) eqn:E.
      + apply andb_true_iff in E as [Ebg Eal]. apply near_qstep; [done|done| |].
        * intros H. rewrite H in Hci. rewrite Eb. tauto.
        * right. exists k. done.
      + exists c. split; [done|]. apply HN. destruct (begun f) eqn:Ebg; [right|by left]. intros H. rewrite H in Hci.
        destruct Hci as [_ Hop]. unfold mailbox_open in Hop. rewrite Ebg in Hop. cbn in E, Hop. rewrite E in Hop.
        by rewrite andb_false_r in Hop.
    - assert (helps f i c (FOwn e) = false) as Hh by (unfold helps; by destruct (c_at c)).
      destruct (begun f && alive (q f) && own_event e) eqn:E; [|exists c; auto].
      apply near_qstep; [done|done| |].
      + intros H. rewrite H in Hci. tauto.
      + left. split; [done|]. split; [done|]. by rewrite Hh.
    - destruct (near_dies f EvCrash i c Ei) as (c' & E & H). exists c'. split; [done|]. by left.
    - assert (helps f i c (FCrashIn o k) = false) as Hh by (unfold helps; by destruct (c_at c)).
      assert (∀ e, ∃ c', cs (process_dies prof sched name h f e) !! i = Some c' ∧
        nearer f i c (FCrashIn o k) (process_dies prof sched name h f e) c') as HD.
      { intros e. destruct (near_dies f e i c Ei) as (c' & E & H). exists c'. split; [done|]. by left. }
      destruct o as [e|].
      + destruct (_ || _); [apply HD|exists c; auto].
      + destruct (q_box f) as [|k1 b]; [exists c; auto|]. destruct (cs f !! k1); [|exists c; auto].
        destruct (begun f); [apply HD|exists c; auto].
  Qed.

  (** *** Endless executions *)
  Section run.
    Context (w : W) (fe : nat → fevent M).
    Notation s n := (instant prof sched name h w fe n).
    Context (Hs : serving prof sched name h w fe).

    Lemma instant_S n : s (S n) = fstep (s n) (fe n).
    Proof. unfold instant, front_run. rewrite seq_S, map_app, fold_left_app. done. Qed.
    Lemma boxed_n n : boxed (s n).
    Proof. apply boxed_run, boxed_init. Qed.
    Lemma is_over_iff c : is_over c = true ↔ over c.
    Proof. unfold is_over, over. destruct (c_at c); naive_solver. Qed.

    (** Less is left to do. *)
    Definition less f i c f' c' : Prop :=
      is_over c' = true ∨ (rank c' < rank c)%nat ∨
      c' = c ∧ (begun f = false ∧ begun f' = true ∧ c_at c = MsgSent ∨
                (begun f' = begun f ∨ c_at c ≠ MsgSent) ∧ (place_in f' i c < place_in f i c)%nat).
    Definition same_place f i c f' c' : Prop :=
      c' = c ∧ (begun f' = begun f ∨ c_at c ≠ MsgSent) ∧ (place_in f' i c <= place_in f i c)%nat.
    Lemma walk n i c d : cs (s n) !! i = Some c → is_over c = false →
      (∃ m c', (n <= m)%nat ∧ cs (s m) !! i = Some c' ∧ less (s n) i c (s m) c') ∨
      ∃ c', cs (s (n + d)) !! i = Some c' ∧ same_place (s n) i c (s (n + d)) c' ∧
        ∀ k, (k < d)%nat → begun (s (n + k)) = begun (s n) ∨ c_at c ≠ MsgSent → helps (s (n + k)) i c (fe (n + k)) = false.
    Proof.
      intros Ei Ho. induction d as [|d [H|(c' & Ei' & (-> & Hb & Hp) & Hk)]].
      - right. exists c. rewrite Nat.add_0_r. split; [done|]. split; [by split; auto|]. intros k Hk. lia.
      - by left.
      - destruct (nearer_step (s (n + d)) i c (fe (n + d)) (boxed_n _) Ei' Ho) as (c' & E & H).
        rewrite <-instant_S in E, H. rewrite Nat.add_succ_r.
        destruct H as [H|[H|(-> & [(H1 & H2 & H3)|(H1 & H2 & H3)])]].
        + left. exists (S (n + d)), c'. split; [lia|]. split; [done|]. by left.
        + left. exists (S (n + d)), c'. split; [lia|]. split; [done|]. right. by left.
        + left. exists (S (n + d)), c. split; [lia|]. split; [done|]. right. right. split; [done|]. left.
          split; [|done]. destruct Hb as [Hb|Hb]; [congruence|done].
        + destruct (helps (s (n + d)) i c (fe (n + d))) eqn:Eh.
          * left. exists (S (n + d)), c. split; [lia|]. split; [done|]. right. right. split; [done|]. right.
            specialize (H3 eq_refl). split; [|lia]. destruct H1 as [H1|H1], Hb as [Hb|Hb]; auto. left. congruence.
          * right. exists c. split; [done|]. split.
            -- split; [done|]. split; [|lia]. destruct H1 as [H1|H1], Hb as [Hb|Hb]; auto. left. congruence.
            -- intros k Hk' Hbk. destruct (decide (k = d)) as [->|Hne]; [done|]. apply Hk; [lia|done].
    Qed.
    Lemma some_help n i c : cs (s n) !! i = Some c → is_over c = false →
      ∃ m, (n <= m)%nat ∧ ∀ f, begun f = begun (s n) ∨ c_at c ≠ MsgSent → helps f i c (fe m) = true.
    Proof.
      intros Ei Ho. destruct (boxed_n n) as (Hc & _). specialize (Hc i c Ei). unfold in_box in Hc.
      destruct Hs as (H1 & H2 & H3 & H4).
      assert (∃ m, (n <= m)%nat ∧ fe m = FGo i) as (mg & Hmg & Eg).
      { eapply H1; [done|]. intros H%is_over_iff. congruence. }
      unfold helps. destruct (c_at c) eqn:Eat.
      - destruct (H2 n) as (m & Hm & E); [intros E; rewrite E in Hc; by destruct Hc as [?%elem_of_nil _]|].
        exists m. split; [done|]. intros f _. by rewrite E.
      - exists mg. split; [done|]. intros f _. rewrite Eg. by apply bool_decide_eq_true.
      - exists mg. split; [done|]. intros f _. rewrite Eg. by apply bool_decide_eq_true.
      - destruct (H2 n) as (m & Hm & E); [intros E; rewrite E in Hc; by apply elem_of_nil in Hc|].
        exists m. split; [done|]. intros f _. by rewrite E.
      - exists mg. split; [done|]. intros f _. rewrite Eg. by apply bool_decide_eq_true.
      - destruct Hc as [Hin Hop]. unfold mailbox_open in Hop. apply andb_true_iff in Hop as [Hkn _].
        destruct (begun (s n)) eqn:Eb.
        + destruct (H3 n) as (m & Hm & E); [intros E; rewrite E in Hin; by apply elem_of_nil in Hin|].
          exists m. split; [done|]. intros f [Hf|Hf]; [|done]. by rewrite E.
        + destruct (H4 n Hkn Eb) as (m & Hm & E).
          exists m. split; [done|]. intros f [Hf|Hf]; [|done]. by rewrite E, Hf.
      - unfold is_over in Ho. by rewrite Eat in Ho.
      - unfold is_over in Ho. by rewrite Eat in Ho.
    Qed.
    Lemma gets_less n i c : cs (s n) !! i = Some c → is_over c = false →
      ∃ m c', (n <= m)%nat ∧ cs (s m) !! i = Some c' ∧ less (s n) i c (s m) c'.
    Proof.
      intros Ei Ho. destruct (some_help n i c Ei Ho) as (m & Hm & Hh).
      destruct (walk n i c (S (m - n)) Ei Ho) as [H|(_ & _ & _ & Hk)]; [done|].
      destruct (walk n i c (m - n) Ei Ho) as [H|(c' & _ & (_ & Hb & _) & _)]; [done|].
      specialize (Hk (m - n)%nat ltac:(lia)). replace (n + (m - n))%nat with m in * by lia.
      rewrite Hh in Hk by done. discriminate (Hk Hb).
    Qed.
    Definition late f c : nat := match c_at c with MsgSent => if begun f then 0 else 1 | _ => 0 end.
    Lemma comes_over n i c : cs (s n) !! i = Some c →
      ∃ m c', (n <= m)%nat ∧ cs (s m) !! i = Some c' ∧ over c'.
    Proof.
      remember (rank c) as r eqn:Er. revert n c Er. induction (lt_wf r) as [r _ IHr]. intros n c ->.
      remember (late (s n) c) as b eqn:Eb. revert n Eb. induction (lt_wf b) as [b _ IHb]. intros n Eb.
      remember (place_in (s n) i c) as p eqn:Ep. revert n Ep Eb. induction (lt_wf p) as [p _ IHp]. intros n -> -> Ei.
      destruct (is_over c) eqn:Ho; [exists n, c; split; [done|]; split; [done|]; by apply is_over_iff|].
      destruct (gets_less n i c Ei Ho) as (m & c' & Hm & Ei' & [H|[H|(-> & H)]]).
      - exists m, c'. split; [done|]. split; [done|]. by apply is_over_iff.
      - destruct (IHr _ H m c' eq_refl Ei') as (m2 & c2 & Hm2 & E2 & H2). exists m2, c2. split; [lia|done].
      - destruct H as [(H1 & H2 & H3)|(H1 & H2)].
        + destruct (IHb (late (s m) c)) with (n := m) as (m2 & c2 & Hm2 & E2 & Ho2); [|done|done|].
          { unfold late. rewrite H3, H1, H2. lia. }
          exists m2, c2. split; [lia|done].
        + destruct (IHp _ H2 m) as (m2 & c2 & Hm2 & E2 & Ho2); [done| |done|exists m2, c2; split; [lia|done]].
          unfold late. destruct (c_at c); try done. destruct H1 as [->|]; done.
    Qed.
  End run.
End answered.
