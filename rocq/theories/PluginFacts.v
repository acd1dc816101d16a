(** Proofs about the plugin centre next to a queue. *)
From Coq Require Import Sorting.Sorted.
From Verif Require Import SpecPlugin WorldFacts MicroFacts.

Section log.
  Context {M : Type} `{SM : Serde M}.
  Context (prof : profile).
  Context (sched : string → option (time → option time)).
  Context (name : string).
  Context (clock : nat → time).
  Notation h := (mem_h clock).
  Notation step := (sys_step prof sched name h).
  Notation sys := (sys world M).

  Lemma mem_h_log X (e : eff X) w : log w `prefix_of` log (h X e w).1.
  Proof.
    destruct e; cbn; try done.
    - by destruct (mem_move _ _ _ _ _ _).
    - apply prefix_app_r. done.
  Qed.
  Lemma run_log {A} (p : prog A) w : log w `prefix_of` log (run h p w).1.
  Proof.
    revert w. induction p as [a| | |X e k IH]; intros w; cbn -[mem_h]; try done.
    pose proof (mem_h_log X e w) as H. destruct (h X e w) as [w' x]. etrans; [exact H|apply IH].
  Qed.
  Lemma run_n_log {A} n (p : prog A) w : log w `prefix_of` log (run_n h n p w).
  Proof.
    revert n w. induction p as [a| | |X e k IH]; intros [|n] w; cbn -[mem_h]; try done.
    pose proof (mem_h_log X e w) as H. destruct (h X e w) as [w' x]. etrans; [exact H|apply IH].
  Qed.
  Lemma commit_log (s : sys) e : log (sw s) `prefix_of` log (sw (commit prof sched name h s e).1).
  Proof.
    unfold commit. pose proof (run_log (ev_prog prof sched name (cfg s) (tasks s) e) (sw s)) as H.
    destruct (run h _ (sw s)) as [w [[[[c ts] js] r]| |]]; done.
  Qed.
  Lemma step_log (s : sys) e : log (sw s) `prefix_of` log (sw (step s e).1).
  Proof.
    unfold sys_step. destruct (alive s).
    - destruct e; try apply commit_log; try done. cbn. destruct e; try apply run_n_log; done.
    - destruct e; try apply commit_log; try done. destruct e; try apply run_n_log; done.
  Qed.

  (** Tasks after an event that is no poll. *)
  Lemma step_tasks (s : sys) e k t :
    match e with EvTask _ _ => False | _ => True end →
    tasks (step s e).1 !! k = Some t → tasks s !! k = Some t ∨ t_phase t = Spawned.
  Proof.
    intros He.
    assert (tasks (commit prof sched name h s e).1 !! k = Some t →
      tasks s !! k = Some t ∨ t_phase t = Spawned) as Hc.
    { unfold commit. destruct e; try done; cbn [ev_prog].
      - rewrite run_bind, run_run_with_config. auto.
      - rewrite run_bind, run_cancel. auto.
      - rewrite run_bind. unfold get_job. rewrite run_get. auto.
      - rewrite run_bind, run_retry. auto.
      - cbn. auto.
      - rewrite run_bind, run_process_jobs. cbv zeta.
        destruct (do_pick prof name clock (max_processing_jobs (cfg s)) (sw s)) as [[w' js] o].
        destruct o; cbn; try done.
        rewrite lookup_app. destruct (tasks s !! k); [auto|].
        rewrite list_lookup_fmap. intros [j [_ ->]]%fmap_Some. auto.
      - rewrite run_bind, run_process_jobs. cbv zeta.
        destruct (do_pick prof name clock (max_processing_jobs wq_config_default) (sw s)) as [[w' js] o].
        destruct o; cbn; try done.
        rewrite list_lookup_fmap. intros [j [_ ->]]%fmap_Some. auto. }
    unfold sys_step. destruct (alive s); destruct e; try done; cbn; auto.
    destruct e; cbn; auto.
  Qed.

  (** One poll. *)
  Lemma step_poll (s : sys) i u t :
    alive s = true → tasks s !! i = Some t →
    let s' := (step s (EvTask i u)).1 in
    match t_phase t with
    | Spawned =>
        if is_cancelled (t_job t) then tasks s' = delete i (tasks s) ∧ log (sw s') = log (sw s)
        else tasks s' = <[i := Task (t_orig t) (t_job t) Hooked]> (tasks s) ∧
             log (sw s') = log (sw s) ++ [RunHook (jid (t_job t)) true]
    | Hooked => tasks s' = <[i := Task (t_orig t) (bump (t_job t)) InUser]> (tasks s) ∧
                log (sw s') = log (sw s)
    | InUser => tasks s' = <[i := Task (t_orig t) (set_data (t_job t) (ur_data u)) AfterHook]> (tasks s) ∧
                log (sw s') = log (sw s) ++ [RunHook (jid (t_job t)) true]
    | AfterHook => tasks s' = delete i (tasks s) ∨ tasks s' = []
    end.
  Proof.
    intros Ha Ht. unfold sys_step. rewrite Ha. unfold commit. cbn [ev_prog]. rewrite Ht, run_bind.
    unfold task_step. destruct (t_phase t) eqn:Ep.
    - destruct (is_cancelled (t_job t)); done.
    - done.
    - done.
    - rewrite run_bind, run_task_tail.
      destruct (snd (judge prof sched clock (reads (sw s)) (t_job t) u)); cbn; auto.
  Qed.
  Lemma step_poll_none (s : sys) i u :
    alive s = false ∨ tasks s !! i = None →
    tasks (step s (EvTask i u)).1 = tasks s ∧ log (sw (step s (EvTask i u)).1) = log (sw s).
  Proof.
    intros H. unfold sys_step. destruct (alive s) eqn:Ea; [|done]. destruct H as [|H]; [done|].
    unfold commit. cbn [ev_prog]. rewrite H. done.
  Qed.
End log.

(** *** The centre *)
Lemma about_app n tr tr' : about n (tr ++ tr') = about n tr ++ about n tr'.
Proof. apply list.filter_app. Qed.
Lemma about_cons_ne n o tr : ¬ is_about n o → about n (o :: tr) = about n tr.
Proof. intros H. unfold about. by rewrite filter_cons_False. Qed.
Lemma about_cons_eq n o tr : is_about n o → about n (o :: tr) = o :: about n tr.
Proof. intros H. unfold about. by rewrite filter_cons_True. Qed.
Lemma about_snoc_ne n o tr : ¬ is_about n o → about n (tr ++ [o]) = about n tr.
Proof. intros H. rewrite about_app, about_cons_ne by done. apply app_nil_r. Qed.
Lemma about_snoc_eq n o tr : is_about n o → about n (tr ++ [o]) = about n tr ++ [o].
Proof. intros H. by rewrite about_app, about_cons_eq. Qed.

Lemma registered_app tr tr' :
  registered (tr ++ tr') =
  fold_left (λ ps o, match o with OReg p => ps ++ [p] | OCrash => [] | _ => ps end) tr' (registered tr).
Proof. apply fold_left_app. Qed.

Lemma should_run_spec p ty : should_run p ty = true ↔ meant_for ty p.
Proof.
  unfold should_run, meant_for. destruct (pl_types p) as [|x l]; [split; auto|].
  rewrite existsb_exists. split.
  - intros (y & Hy & E%Nat.eqb_eq). subst. right. by apply elem_of_list_In.
  - intros [|H]; [done|]. exists ty. split; [by apply elem_of_list_In|apply Nat.eqb_refl].
Qed.
Lemma next_plugin_spec ty ps :
  match next_plugin ty ps with
  | None => filter (meant_for ty) ps = []
  | Some (p, rest) => filter (meant_for ty) ps = p :: filter (meant_for ty) rest ∧ meant_for ty p
  end.
Proof.
  induction ps as [|p ps IH]; cbn [next_plugin]; [done|].
  destruct (should_run p ty) eqn:E.
  - apply should_run_spec in E. by rewrite filter_cons_True.
  - assert (¬ meant_for ty p) as Hn by (rewrite <-should_run_spec, E; done).
    destruct (next_plugin ty ps) as [[q rest]|]; rewrite filter_cons_False by done; done.
Qed.
Lemma asks_call_of m : asks m (call_of m).
Proof. destruct m as [|id []]; constructor. Qed.

Definition nos (c : center) : list nat := map f_no (c_futs c) ++ map fst (c_box c).
Definition fut_ok (tr : list obs) (f : fut) : Prop :=
  ∃ m ps called, asks m (f_call f) ∧
    about (f_no f) tr =
      OSend (f_no f) (f_type f, m) :: OHandle (f_no f) (f_type f) ps :: calls_to (f_no f) (f_call f) called ∧
    filter (meant_for (f_type f)) ps = called ++ filter (meant_for (f_type f)) (f_todo f).

Record cinv (c : center) (tr : list obs) : Prop := {
  c_sorted : StronglySorted lt (nos c);
  c_lt : ∀ n, n ∈ nos c → (n < c_next c)%nat;
  c_fresh : ∀ n, (c_next c <= n)%nat → about n tr = [];
  c_boxok : ∀ n x, (n, x) ∈ c_box c →
    about n tr = match x with MMsg t m => [OSend n (t, m)] | MRegister _ => [] end;
  c_futok : ∀ f, f ∈ c_futs c → fut_ok tr f;
  c_story : ∀ n, story n (about n tr);
  c_reg : c_plugins c = registered tr;
  c_snap : ∀ pre n ty ps suf, tr = pre ++ OHandle n ty ps :: suf → ps = registered pre;
}.

(** Message n was sent for [m], and is either on its way or has ended. *)
Definition on_way (c : center) (tr : list obs) (n : nat) (m : nat * msg) : Prop :=
  (n < c_next c)%nat ∧ (∃ rest, about n tr = OSend n m :: rest) ∧
  (n ∈ nos c ∨ ∃ pre b, about n tr = pre ++ [OEnd n b]).

Lemma sorted_snoc l n : StronglySorted lt l → (∀ k, k ∈ l → (k < n)%nat) → StronglySorted lt (l ++ [n]).
Proof.
  induction 1 as [|x l Hl IH Hx]; cbn; intros Hlt; [repeat constructor|].
  constructor.
  - apply IH. intros k Hk. apply Hlt. by right.
  - apply Forall_app. split; [done|]. constructor; [|constructor]. apply Hlt. by left.
Qed.
Lemma sorted_sublist l l' : l' `sublist_of` l → StronglySorted lt l → StronglySorted lt l'.
Proof.
  induction 1 as [|x l' l Hs IH|x l' l Hs IH]; intros H; [constructor| |].
  - apply StronglySorted_inv in H as [H1 H2]. constructor; [auto|].
    rewrite list.Forall_forall in *. intros y Hy. apply H2. eapply elem_of_submseteq; [exact Hy|by apply sublist_submseteq].
  - apply StronglySorted_inv in H as [H1 H2]. auto.
Qed.
Lemma sorted_nodup l : StronglySorted lt l → NoDup l.
Proof.
  induction 1 as [|x l Hl IH Hx]; constructor; [|done].
  intros Hin. rewrite list.Forall_forall in Hx. apply Hx in Hin. lia.
Qed.

(** A snapshot in an extended trace. *)
Lemma snap_snoc tr os pre n ty ps suf :
  tr ++ os = pre ++ OHandle n ty ps :: suf →
  (∃ suf', tr = pre ++ OHandle n ty ps :: suf') ∨
  (∃ os1, pre = tr ++ os1 ∧ os = os1 ++ OHandle n ty ps :: suf).
Proof.
  revert pre. induction tr as [|o tr IH]; intros pre; cbn.
  - intros ->. right. by exists pre.
  - destruct pre as [|o' pre]; cbn.
    + intros [= -> <-]. left. by exists tr.
    + intros [= -> H]. destruct (IH _ H) as [[suf' ->]|(os1 & -> & ->)]; [left; by exists suf'|].
      right. by exists os1.
Qed.

(** Observations about nothing. *)
Lemma cinv_silent c tr os :
  (∀ n, about n os = []) → (∀ o, o ∈ os → match o with OReg _ | OCrash | OHandle _ _ _ => False | _ => True end) →
  cinv c tr → cinv c (tr ++ os).
Proof.
  intros Hos Hos2 H.
  assert (∀ n, about n (tr ++ os) = about n tr) as E by (intros n; by rewrite about_app, Hos, app_nil_r).
  assert (∀ l, (∀ o, o ∈ l → match o with OReg _ | OCrash | OHandle _ _ _ => False | _ => True end) →
    ∀ tr, registered (tr ++ l) = registered tr) as ER.
  { clear. intros l Hl tr. rewrite registered_app. generalize (registered tr).
    induction l as [|o l IH]; intros r; cbn; [done|]. pose proof (Hl o ltac:(by left)) as Ho.
    rewrite IH by (intros; apply Hl; by right). by destruct o. }
  split; try apply H.
  - intros n Hn. rewrite E. by apply H.
  - intros n x Hm. rewrite E. by eapply c_boxok.
  - intros f Hf. unfold fut_ok. rewrite E. by eapply c_futok.
  - intros n. rewrite E. by eapply c_story.
  - rewrite ER by done. apply H.
  - intros pre n ty ps suf Heq. apply snap_snoc in Heq as [[suf' ->]|(os1 & -> & ->)].
    + by eapply c_snap.
    + exfalso. apply (Hos2 (OHandle n ty ps)). set_solver.
Qed.

Definition post1 (c : center) (x : mail) : center :=
  Center (c_plugins c) (c_box c ++ [(c_next c, x)]) (c_futs c) (S (c_next c)).

Lemma nos_post1 c x : nos (post1 c x) = nos c ++ [c_next c].
Proof. unfold nos. cbn. by rewrite map_app, app_assoc. Qed.

Lemma registered_snoc tr o :
  registered (tr ++ [o]) =
  match o with OReg p => registered tr ++ [p] | OCrash => [] | _ => registered tr end.
Proof. rewrite registered_app. by destruct o. Qed.

Lemma snap_one c tr o :
  cinv c tr → match o with OHandle _ _ ps => ps = registered tr | _ => True end →
  ∀ pre n ty ps suf, tr ++ [o] = pre ++ OHandle n ty ps :: suf → ps = registered pre.
Proof.
  intros H Ho pre n ty ps suf Heq. apply snap_snoc in Heq as [[suf' ->]|(os1 & -> & E)].
  - by eapply c_snap.
  - destruct os1 as [|o1 os1].
    + cbn in E. injection E as -> _. by rewrite app_nil_r.
    + exfalso. apply (f_equal length) in E. cbn in E. rewrite app_length in E. cbn in E. lia.
Qed.

Lemma post1_register_inv c tr p : cinv c tr → cinv (post1 c (MRegister p)) tr.
Proof.
  intros H. split; try apply H.
  - rewrite nos_post1. apply sorted_snoc; apply H.
  - intros n. rewrite nos_post1, elem_of_app, elem_of_list_singleton. cbn.
    intros [Hn|Hn]; [apply H in Hn; lia|lia].
  - cbn. intros n Hn. apply H. lia.
  - cbn. intros n x. rewrite elem_of_app, elem_of_list_singleton. intros [Hm|[= -> ->]]; [by eapply c_boxok|].
    by apply H.
Qed.

Lemma post1_inv c tr ty m : cinv c tr → cinv (post1 c (MMsg ty m)) (tr ++ [OSend (c_next c) (ty, m)]).
Proof.
  intros H.
  assert (∀ n, (n < c_next c)%nat → about n (tr ++ [OSend (c_next c) (ty, m)]) = about n tr) as E.
  { intros n Hn. apply about_snoc_ne. cbn. lia. }
  assert (about (c_next c) (tr ++ [OSend (c_next c) (ty, m)]) = [OSend (c_next c) (ty, m)]) as E2.
  { rewrite about_snoc_eq by done. by rewrite (c_fresh _ _ H). }
  split.
  - rewrite nos_post1. apply sorted_snoc; apply H.
  - intros n. rewrite nos_post1, elem_of_app, elem_of_list_singleton. cbn.
    intros [Hn|Hn]; [apply H in Hn; lia|lia].
  - cbn. intros n Hn. rewrite about_snoc_ne by (cbn; lia). apply H. lia.
  - cbn. intros n x. rewrite elem_of_app, elem_of_list_singleton. intros [Hm|[= -> ->]].
    + rewrite E; [by eapply c_boxok|]. eapply c_lt; [done|]. unfold nos. rewrite elem_of_app. right.
      apply elem_of_list_fmap. by exists (n, x).
    + done.
  - cbn. intros f Hf. unfold fut_ok. rewrite E; [by eapply c_futok|].
    eapply c_lt; [done|]. unfold nos. rewrite elem_of_app. left. apply elem_of_list_fmap. by exists f.
  - intros n. destruct (decide (n = c_next c)) as [->|Hne].
    + rewrite E2. constructor.
    + rewrite about_snoc_ne by (cbn; lia). by eapply c_story.
  - cbn. rewrite registered_snoc. apply H.
  - eapply snap_one; [exact H|done].
Qed.

Lemma handle_inv c tr : cinv c tr → cinv (handle c).1 (tr ++ (handle c).2).
Proof.
  intros H. unfold handle. destruct (c_box c) as [|[n [p|ty m]] box] eqn:EB.
  - cbn. by rewrite app_nil_r.
  - cbn. assert (∀ k, about k (tr ++ [OReg p]) = about k tr) as E by (intros; apply about_snoc_ne; by intros []).
    split.
    + eapply sorted_sublist; [|apply H]. unfold nos. cbn. rewrite EB. cbn.
      apply sublist_app; [done|]. by apply sublist_cons.
    + cbn. intros k Hk. eapply c_lt; [done|]. unfold nos in *. cbn in *. rewrite EB. cbn. rewrite elem_of_app in *. rewrite elem_of_cons. tauto.
    + cbn. intros k Hk. rewrite E. by apply H.
    + cbn. intros k x Hk. rewrite E. eapply c_boxok; [done|]. rewrite EB. by right.
    + cbn. intros f Hf. unfold fut_ok. rewrite E. by eapply c_futok.
    + intros k. rewrite E. by eapply c_story.
    + cbn. rewrite registered_snoc. by rewrite (c_reg _ _ H).
    + by eapply snap_one.
  - cbn. set (o := OHandle n ty (c_plugins c)).
    assert (∀ k, k ≠ n → about k (tr ++ [o]) = about k tr) as E.
    { intros k Hk. apply about_snoc_ne. cbn. congruence. }
    assert (about n (tr ++ [o]) = [OSend n (ty, m); o]) as E2.
    { rewrite about_snoc_eq by done. rewrite (c_boxok _ _ H n (MMsg ty m)); [done|]. rewrite EB. by left. }
    assert (NoDup (nos c)) as Hnd by apply sorted_nodup, H.
    assert (nos c = map f_no (c_futs c) ++ n :: map fst box) as EN by (unfold nos; by rewrite EB).
    rewrite EN in Hnd. apply NoDup_app in Hnd as (_ & Hnd & Hnd2). apply list.NoDup_cons in Hnd2 as [Hnd2 _].
    split.
    + unfold nos. cbn. rewrite map_app, <-app_assoc. cbn. rewrite <-EN. apply H.
    + unfold nos. cbn. rewrite map_app, <-app_assoc. cbn. rewrite <-EN. apply H.
    + cbn. intros k Hk. rewrite E; [by apply H|]. intros ->.
      assert (n ∈ nos c) as Hn by (rewrite EN, elem_of_app, elem_of_cons; auto). apply (c_lt _ _ H) in Hn. lia.
    + cbn. intros k x Hk. rewrite E; [eapply c_boxok; [done|]; rewrite EB; by right|].
      intros ->. apply Hnd2. apply elem_of_list_fmap. by exists (n, x).
    + cbn. intros f. rewrite elem_of_app, elem_of_list_singleton. intros [Hf| ->].
      * unfold fut_ok. rewrite E; [by eapply c_futok|]. intros Heq. apply (Hnd (f_no f)).
        -- apply elem_of_list_fmap. by exists f.
        -- rewrite Heq. by left.
      * exists m, (c_plugins c), []. cbn. split; [apply asks_call_of|]. split; [exact E2|done].
    + intros k. destruct (decide (k = n)) as [->|Hk].
      * rewrite E2. by apply (st_handled n m (call_of m) ty _ [] (filter (meant_for ty) (c_plugins c))); [apply asks_call_of|].
      * rewrite E by done. by eapply c_story.
    + cbn. rewrite registered_snoc. apply H.
    + eapply snap_one; [exact H|]. cbn. apply H.
Qed.

Lemma nos_insert c i f f' :
  c_futs c !! i = Some f → f_no f' = f_no f →
  nos (Center (c_plugins c) (c_box c) (<[i := f']> (c_futs c)) (c_next c)) = nos c.
Proof.
  intros Hf En. unfold nos. cbn. f_equal. rewrite <-!list_fmap_alt || idtac.
  change (map f_no (<[i:=f']> (c_futs c))) with (f_no <$> <[i:=f']> (c_futs c)).
  rewrite list_fmap_insert, En. apply list_insert_id. by rewrite list_lookup_fmap, Hf.
Qed.
Lemma map_delete {A B} (g : A → B) i (l : list A) : map g (delete i l) = delete i (map g l).
Proof. revert i. induction l as [|x l IH]; intros [|i]; cbn; [done..|]. by rewrite IH. Qed.
Lemma delete_sublist' {A} i (l : list A) : delete i l `sublist_of` l.
Proof.
  revert i. induction l as [|x l IH]; intros [|i]; cbn; [done|done|by apply sublist_cons|].
  by apply sublist_skip.
Qed.
Lemma delete_elem {A} i (l : list A) x : x ∈ delete i l → x ∈ l.
Proof.
  intros H. eapply elem_of_submseteq; [exact H|]. apply sublist_submseteq, delete_sublist'.
Qed.
Lemma delete_nodup {A} i (l : list A) x : NoDup l → l !! i = Some x → x ∉ delete i l.
Proof.
  revert i. induction l as [|y l IH]; intros [|i]; cbn; try done.
  - intros [H _]%list.NoDup_cons [= <-]. done.
  - intros [H1 H2]%list.NoDup_cons H3. rewrite elem_of_cons. intros [->|H4].
    + apply H1. by eapply elem_of_list_lookup_2.
    + by eapply IH.
Qed.
Lemma delete_other {A} i (l : list A) x y :
  l !! i = Some x → y ∈ l → y ≠ x → y ∈ delete i l.
Proof.
  revert i. induction l as [|z l IH]; intros [|i]; cbn; try done.
  - intros [= ->] [->|H]%elem_of_cons ?; done.
  - intros H3 [->|H]%elem_of_cons ?; [by left|]. right. by eapply IH.
Qed.

(** The future number i calls a plugin or ends. *)
Lemma drop_fut_inv c tr i f :
  c_futs c !! i = Some f → cinv c tr →
  ∀ os, (∀ k, k ≠ f_no f → about k (tr ++ os) = about k tr) → story (f_no f) (about (f_no f) (tr ++ os)) →
  registered (tr ++ os) = registered tr →
  (∀ pre n ty ps suf, tr ++ os = pre ++ OHandle n ty ps :: suf → ps = registered pre) →
  cinv (Center (c_plugins c) (c_box c) (delete i (c_futs c)) (c_next c)) (tr ++ os).
Proof.
  intros Hf H os E Hst Hreg Hsnap.
  assert (f ∈ c_futs c) as Hin by by eapply elem_of_list_lookup_2.
  assert (NoDup (nos c)) as Hnd by apply sorted_nodup, H.
  assert (f_no f ∈ map f_no (c_futs c)) as Hfn by (apply elem_of_list_fmap; by exists f).
  unfold nos in Hnd. apply NoDup_app in Hnd as (Hnd1 & Hnd2 & _).
  assert (f_no f ∉ map f_no (delete i (c_futs c))) as Hgone.
  { rewrite map_delete. apply delete_nodup; [done|].
    change (map f_no (c_futs c)) with (f_no <$> c_futs c). by rewrite list_lookup_fmap, Hf. }
  split.
  - eapply sorted_sublist; [|apply H]. unfold nos. cbn. apply sublist_app; [|done].
    rewrite map_delete. apply delete_sublist'.
  - intros k Hk. apply (c_lt _ _ H). unfold nos in *. cbn in *. rewrite elem_of_app in *.
    destruct Hk as [Hk|Hk]; [left|by right]. rewrite map_delete in Hk. by eapply delete_elem.
  - cbn. intros k Hk. rewrite E; [by apply H|]. intros ->.
    assert (f_no f ∈ nos c) as Hn by (unfold nos; rewrite elem_of_app; auto).
    apply (c_lt _ _ H) in Hn. lia.
  - cbn. intros k x Hk. rewrite E; [by eapply c_boxok|]. intros ->.
    apply (Hnd2 (f_no f)); [done|]. apply elem_of_list_fmap. by exists (f_no f, x).
  - cbn. intros g Hg. unfold fut_ok. rewrite E; [eapply c_futok; [done|]; by eapply delete_elem|].
    intros Heq. apply Hgone. rewrite <-Heq. apply elem_of_list_fmap. by exists g.
  - intros k. destruct (decide (k = f_no f)) as [->|Hk]; [done|]. rewrite E by done. by eapply c_story.
  - cbn. rewrite Hreg. apply H.
  - done.
Qed.

Lemma calls_to_snoc n c called p : calls_to n c (called ++ [p]) = calls_to n c called ++ [OCall n p c].
Proof. unfold calls_to. by rewrite map_app. Qed.

Lemma poll_inv c tr i ok : cinv c tr → cinv (poll c i ok).1 (tr ++ (poll c i ok).2).
Proof.
  intros H. unfold poll. destruct (c_futs c !! i) as [f|] eqn:Ef; [|cbn; by rewrite app_nil_r].
  destruct (forallb f_started (take i (c_futs c))); [|cbn; by rewrite app_nil_r].
  assert (f ∈ c_futs c) as Hin by by eapply elem_of_list_lookup_2.
  destruct (c_futok _ _ H f Hin) as (m & ps & called & Hasks & Eab & Eps).
  pose proof (next_plugin_spec (f_type f) (f_todo f)) as Hnp.
  destruct (next_plugin (f_type f) (f_todo f)) as [[p rest]|].
  - destruct Hnp as [Hnp Hmf]. rewrite Hnp in Eps. set (oc := OCall (f_no f) p (f_call f)).
    assert (about (f_no f) (tr ++ [oc]) =
      OSend (f_no f) (f_type f, m) :: OHandle (f_no f) (f_type f) ps
        :: calls_to (f_no f) (f_call f) (called ++ [p])) as E2.
    { rewrite about_snoc_eq by done. rewrite Eab, calls_to_snoc. done. }
    assert (filter (meant_for (f_type f)) ps = (called ++ [p]) ++ filter (meant_for (f_type f)) rest) as Eps2.
    { rewrite Eps, <-app_assoc. done. }
    assert (∀ k, k ≠ f_no f → about k (tr ++ [oc]) = about k tr) as E.
    { intros k Hk. apply about_snoc_ne. cbn. congruence. }
    destruct ok; cbn.
    + set (f' := Fut (f_no f) (f_type f) (f_call f) rest true).
      assert (NoDup (nos c)) as Hnd by apply sorted_nodup, H.
      unfold nos in Hnd. apply NoDup_app in Hnd as (Hnd1 & Hnd2 & _).
      split.
      * rewrite (nos_insert c i f f') by done. apply H.
      * rewrite (nos_insert c i f f') by done. apply H.
      * cbn. intros k Hk. rewrite E; [by apply H|]. intros ->.
        assert (f_no f ∈ nos c) as Hn.
        { unfold nos. rewrite elem_of_app. left. apply elem_of_list_fmap. by exists f. }
        apply (c_lt _ _ H) in Hn. lia.
      * cbn. intros k x Hk. rewrite E; [by eapply c_boxok|]. intros ->.
        apply (Hnd2 (f_no f)); apply elem_of_list_fmap; [by exists f|by exists (f_no f, x)].
      * cbn. intros g Hg. apply elem_of_list_lookup in Hg as [k Hk].
        destruct (decide (k = i)) as [->|Hki].
        -- rewrite list_lookup_insert in Hk by by eapply lookup_lt_Some. injection Hk as <-.
           exists m, ps, (called ++ [p]). done.
        -- rewrite list_lookup_insert_ne in Hk by done. unfold fut_ok. rewrite E.
           { eapply c_futok; [done|]. by eapply elem_of_list_lookup_2. }
           intros Heq. apply Hki. eapply NoDup_lookup; [exact Hnd1| |].
           ++ change (map f_no (c_futs c)) with (f_no <$> c_futs c). rewrite list_lookup_fmap, Hk. done.
           ++ change (map f_no (c_futs c)) with (f_no <$> c_futs c). rewrite list_lookup_fmap, Ef. cbn. by rewrite Heq.
      * intros k. destruct (decide (k = f_no f)) as [->|Hk].
        -- rewrite E2. by eapply st_handled.
        -- rewrite E by done. by eapply c_story.
      * cbn. rewrite registered_snoc. apply H.
      * by eapply snap_one.
    + apply (drop_fut_inv c tr i f); [done|done| | | |].
      * intros k Hk. change [oc; OEnd (f_no f) true] with ([oc] ++ [OEnd (f_no f) true]).
        rewrite app_assoc, about_snoc_ne by (cbn; congruence). by apply E.
      * change [oc; OEnd (f_no f) true] with ([oc] ++ [OEnd (f_no f) true]).
        rewrite app_assoc, about_snoc_eq by done. rewrite E2. cbn. by eapply st_panicked.
      * rewrite registered_app. done.
      * intros pre n ty' ps' suf Heq. apply snap_snoc in Heq as [[suf' ->]|(os1 & -> & E3)].
        -- by eapply c_snap.
        -- exfalso. assert (OHandle n ty' ps' ∈ [oc; OEnd (f_no f) true]) as Hel.
           { rewrite E3, elem_of_app. right. by left. }
           rewrite !elem_of_cons in Hel. destruct Hel as [|[|Hel]]; [done|done|by apply elem_of_nil in Hel].
  - cbn. rewrite Hnp, app_nil_r in Eps. subst called.
    apply (drop_fut_inv c tr i f); [done|done| | | |].
    + intros k Hk. apply about_snoc_ne. cbn. congruence.
    + rewrite about_snoc_eq by done. rewrite Eab. cbn. by eapply st_ended.
    + by rewrite registered_snoc.
    + by eapply snap_one.
Qed.

Lemma crash_inv c tr : cinv c tr → cinv (Center [] [] [] (c_next c)) (tr ++ [OCrash]).
Proof.
  intros H. assert (∀ k, about k (tr ++ [OCrash]) = about k tr) as E by (intros; apply about_snoc_ne; by intros []).
  split; cbn.
  - constructor.
  - intros n Hn. by apply elem_of_nil in Hn.
  - intros n Hn. rewrite E. by apply H.
  - intros n x Hn. by apply elem_of_nil in Hn.
  - intros f Hf. by apply elem_of_nil in Hf.
  - intros n. rewrite E. by eapply c_story.
  - by rewrite registered_snoc.
  - by eapply snap_one.
Qed.

Lemma cinv_init : cinv (Center [] [] [] 0) [].
Proof.
  split; cbn; try done; try (intros; by match goal with H : _ ∈ [] |- _ => apply elem_of_nil in H end).
  - constructor.
  - intros n. constructor.
  - intros [] ?????; done.
Qed.

(** *** What every action of the centre keeps *)
Record cmove (c : center) (tr : list obs) (c' : center) (os : list obs) : Prop := {
  cm_inv : cinv c' (tr ++ os);
  cm_next : (c_next c <= c_next c')%nat;
  cm_old : ∀ k, (k < c_next c)%nat → k ∉ nos c → about k os = [] ∧ k ∉ nos c';
  cm_keep : ∀ k m, on_way c tr k m → on_way c' (tr ++ os) k m;
  cm_quiet : ∀ n id, OStart n id ∉ os;
}.

(** [on_way] is kept if its message is kept or ends. *)
Lemma on_way_keep c tr c' os k m :
  (c_next c <= c_next c')%nat →
  (k ∉ nos c → about k os = []) →
  (k ∈ nos c → k ∈ nos c' ∨ ∃ l b, about k os = l ++ [OEnd k b]) →
  on_way c tr k m → on_way c' (tr ++ os) k m.
Proof.
  intros Hn Hold Hkeep (H1 & [rest H2] & H3). split; [lia|]. split.
  - rewrite about_app, H2. by eexists.
  - destruct (decide (k ∈ nos c)) as [Hk|Hk].
    + destruct (Hkeep Hk) as [|(l & b & E)]; [by left|right].
      rewrite about_app, E, app_assoc. by eexists _, _.
    + destruct H3 as [|H3]; [done|]. right. rewrite about_app, Hold, app_nil_r by done. done.
Qed.

Lemma cmove_refl c tr : cinv c tr → cmove c tr c [].
Proof.
  intros H. split; [by rewrite app_nil_r|lia|done|by rewrite app_nil_r|].
  intros n id Hn. by apply elem_of_nil in Hn.
Qed.
Lemma cmove_trans c tr c1 os1 c2 os2 :
  cmove c tr c1 os1 → cmove c1 (tr ++ os1) c2 os2 → cmove c tr c2 (os1 ++ os2).
Proof.
  intros H1 H2. pose proof (cm_next _ _ _ _ H1). pose proof (cm_next _ _ _ _ H2). split.
  - rewrite app_assoc. apply H2.
  - lia.
  - intros k Hk Hn. destruct (cm_old _ _ _ _ H1 k Hk Hn) as [E1 Hn1].
    destruct (cm_old _ _ _ _ H2 k ltac:(lia) Hn1) as [E2 Hn2]. split; [|done]. by rewrite about_app, E1, E2.
  - intros k m Hk. rewrite app_assoc. apply H2, H1, Hk.
  - intros n id [Hn|Hn]%elem_of_app; [by eapply (cm_quiet _ _ _ _ H1)|by eapply (cm_quiet _ _ _ _ H2)].
Qed.

Lemma cmove_register c tr p : cinv c tr → cmove c tr (post1 c (MRegister p)) [].
Proof.
  intros H. split.
  - rewrite app_nil_r. by apply post1_register_inv.
  - cbn. lia.
  - intros k Hk Hn. split; [done|]. rewrite nos_post1, elem_of_app, elem_of_list_singleton. intros [|]; [done|lia].
  - intros k m. apply on_way_keep; [cbn; lia|done|]. intros Hk. left. rewrite nos_post1, elem_of_app. auto.
  - intros n id Hn. by apply elem_of_nil in Hn.
Qed.
Lemma cmove_post1 c tr ty m : cinv c tr → cmove c tr (post1 c (MMsg ty m)) [OSend (c_next c) (ty, m)].
Proof.
  intros H. split.
  - by apply post1_inv.
  - cbn. lia.
  - intros k Hk Hn. split.
    + apply about_cons_ne. cbn. lia.
    + rewrite nos_post1, elem_of_app, elem_of_list_singleton. intros [|]; [done|lia].
  - intros k m' Hw. pose proof Hw as (Hlt & _). revert Hw. apply on_way_keep.
    + cbn; lia.
    + intros _. apply about_cons_ne. cbn. lia.
    + intros Hk. left. rewrite nos_post1, elem_of_app. auto.
  - intros n id Hn. apply elem_of_list_singleton in Hn. done.
Qed.
Lemma cmove_post ty ms c tr : cinv c tr → cmove c tr (post ty ms c).1 (post ty ms c).2.
Proof.
  revert c tr. induction ms as [|m ms IH]; intros c tr H; cbn [post]; [by apply cmove_refl|].
  fold (post1 c (MMsg ty m)). pose proof (cmove_post1 c tr ty m H) as H1.
  pose proof (IH _ _ (cm_inv _ _ _ _ H1)) as H2.
  destruct (post ty ms (post1 c (MMsg ty m))) as [c' os]. cbn in *.
  by apply (cmove_trans c tr _ [OSend (c_next c) (ty, m)] c' os H1).
Qed.
Lemma cmove_handle c tr : cinv c tr → cmove c tr (handle c).1 (handle c).2.
Proof.
  intros H. pose proof (handle_inv c tr H) as Hi. unfold handle in *.
  destruct (c_box c) as [|[n [p|ty m]] box] eqn:EB; cbn [fst snd] in *.
  - by apply cmove_refl.
  - split; [done|done| | |].
    + intros k Hk Hn. split; [apply about_cons_ne; by intros []|].
      intros Hn'. apply Hn. unfold nos in *. cbn in *. rewrite EB. cbn.
      rewrite elem_of_app in *. rewrite elem_of_cons. tauto.
    + intros k m (Hlt & [rest Hr] & Hw). apply (on_way_keep c tr); [done| | |].
      * intros _. apply about_cons_ne. by intros [].
      * intros Hk. left. unfold nos in *. cbn in *. rewrite EB in Hk. cbn in Hk.
        rewrite elem_of_app in *. rewrite elem_of_cons in Hk. destruct Hk as [|[->|]]; [by left| |by right].
        exfalso. rewrite (c_boxok _ _ H n (MRegister p)) in Hr; [done|]. rewrite EB. by left.
      * split; [done|]. split; [by exists rest|done].
    + intros k id Hn. apply elem_of_list_singleton in Hn. done.
  - assert (nos c = map f_no (c_futs c) ++ n :: map fst box) as EN by (unfold nos; by rewrite EB).
    assert (nos (Center (c_plugins c) box (c_futs c ++ [Fut n ty (call_of m) (c_plugins c) false]) (c_next c))
      = nos c) as EN'.
    { rewrite EN. unfold nos. cbn. by rewrite map_app, <-app_assoc. }
    split; [done|done| | |].
    + intros k Hk Hn. rewrite EN'. split; [|done]. apply about_cons_ne. cbn. intros ->.
      apply Hn. rewrite EN, elem_of_app, elem_of_cons. auto.
    + intros k m'. apply on_way_keep; [done| |].
      * intros Hn. apply about_cons_ne. cbn. intros ->. apply Hn. rewrite EN, elem_of_app, elem_of_cons. auto.
      * intros Hk. left. by rewrite EN'.
    + intros k id Hn. apply elem_of_list_singleton in Hn. done.
Qed.
Lemma cmove_poll c tr i ok : cinv c tr → cmove c tr (poll c i ok).1 (poll c i ok).2.
Proof.
  intros H. pose proof (poll_inv c tr i ok H) as Hi. unfold poll in *.
  destruct (c_futs c !! i) as [f|] eqn:Ef; [|by apply cmove_refl].
  destruct (forallb f_started (take i (c_futs c))); [|by apply cmove_refl].
  assert (f_no f ∈ nos c) as Hfn.
  { unfold nos. rewrite elem_of_app. left. apply elem_of_list_fmap. exists f. split; [done|].
    by eapply elem_of_list_lookup_2. }
  assert (∀ k, k ∉ nos c → k ≠ f_no f) as Hne by (intros k Hk ->; done).
  assert (∀ os, (∀ o, o ∈ os → is_about (f_no f) o) → ∀ k, k ∉ nos c → about k os = []) as Hab.
  { clear -Hne. intros os Hos k Hk. unfold about. induction os as [|o os IH]; [done|].
    rewrite filter_cons_False.
    - apply IH. intros; apply Hos. by right.
    - pose proof (Hos o ltac:(by left)) as Ho. specialize (Hne k Hk). destruct o; cbn in *; congruence. }
  assert (∀ k, k ∈ nos (Center (c_plugins c) (c_box c) (delete i (c_futs c)) (c_next c)) → k ∈ nos c) as Hdel.
  { intros k. unfold nos. cbn. rewrite !elem_of_app, map_delete. intros [Hk|]; [left|by right]. by eapply delete_elem. }
  assert (∀ k, k ∈ nos c → k ≠ f_no f → k ∈ nos (Center (c_plugins c) (c_box c) (delete i (c_futs c)) (c_next c))) as Hdel2.
  { intros k. unfold nos. cbn. rewrite !elem_of_app, map_delete. intros [Hk|] Hk2; [left|by right].
    eapply delete_other; [|done|exact Hk2].
    change (map f_no (c_futs c)) with (f_no <$> c_futs c). by rewrite list_lookup_fmap, Ef. }
  assert (∀ p c o, about (f_no f) [OCall (f_no f) p c; o] = about (f_no f) ([OCall (f_no f) p c] ++ [o])) as E0 by done.
  destruct (next_plugin (f_type f) (f_todo f)) as [[p rest]|]; [destruct ok|]; cbn [fst snd] in *.
  - assert (nos (Center (c_plugins c) (c_box c)
      (<[i:=Fut (f_no f) (f_type f) (f_call f) rest true]> (c_futs c)) (c_next c)) = nos c) as EN
      by by apply (nos_insert c i f).
    assert (∀ k, k ∉ nos c → about k [OCall (f_no f) p (f_call f)] = []) as E.
    { apply Hab. intros o ->%elem_of_list_singleton. done. }
    split; [done|done| | |].
    + intros k Hk Hn. rewrite EN. auto.
    + intros k m. apply on_way_keep; [done|auto|]. rewrite EN. auto.
    + intros k id ?%elem_of_list_singleton. done.
  - assert (∀ k, k ∉ nos c → about k [OCall (f_no f) p (f_call f); OEnd (f_no f) true] = []) as E.
    { apply Hab. intros o [->|[->|[]%elem_of_nil]%elem_of_cons]%elem_of_cons; done. }
    split; [done|done| | |].
    + intros k Hk Hn. split; [auto|]. intros Hk'. by apply Hdel in Hk'.
    + intros k m. apply on_way_keep; [done|auto|]. intros Hk. destruct (decide (k = f_no f)) as [->|Hkf].
      * right. exists [OCall (f_no f) p (f_call f)], true. unfold about.
        by rewrite !filter_cons_True by done.
      * left. auto.
    + intros k id [?|[?|[]%elem_of_nil]%elem_of_cons]%elem_of_cons; done.
  - assert (∀ k, k ∉ nos c → about k [OEnd (f_no f) false] = []) as E.
    { apply Hab. intros o ->%elem_of_list_singleton. done. }
    split; [done|done| | |].
    + intros k Hk Hn. split; [auto|]. intros Hk'. by apply Hdel in Hk'.
    + intros k m. apply on_way_keep; [done|auto|]. intros Hk. destruct (decide (k = f_no f)) as [->|Hkf].
      * right. exists [], false. unfold about. by rewrite !filter_cons_True by done.
      * left. auto.
    + intros k id ?%elem_of_list_singleton. done.
Qed.

Lemma waited_app tr os : waited (tr ++ os) = waited tr ++ waited os.
Proof. unfold waited. apply omap_app. Qed.
Lemma waited_nil os : (∀ n id, OStart n id ∉ os) → waited os = [].
Proof.
  induction os as [|o os IH]; [done|]. intros H. unfold waited in *. cbn.
  rewrite IH by (intros n id Hn; apply (H n id); by right).
  destruct o; try done. exfalso. eapply H. by left.
Qed.

(** A start in an extended trace. *)
Lemma start_snoc tr os pre n id suf :
  tr ++ os = pre ++ OStart n id :: suf →
  (∃ suf', tr = pre ++ OStart n id :: suf' ∧ suf = suf' ++ os) ∨
  (∃ os1, pre = tr ++ os1 ∧ os = os1 ++ OStart n id :: suf).
Proof.
  revert pre. induction tr as [|o tr IH]; intros pre; cbn.
  - intros ->. right. by exists pre.
  - destruct pre as [|o' pre]; cbn.
    + intros [= -> <-]. left. by exists tr.
    + intros [= -> H]. destruct (IH _ H) as [(suf' & -> & ->)|(os1 & -> & ->)]; [left; by exists suf'|].
      right. by exists os1.
Qed.

Section psys_facts.
  Context {M : Type} `{SM : Serde M}.
  Context (prof : profile).
  Context (sched : string → option (time → option time)).
  Context (name : string).
  Context (clock : nat → time).
  Context (ty : nat).
  Notation h := (mem_h clock).
  Notation step := (sys_step prof sched name h).
  Notation psys := (psys M).
  Notation pstep := (psys_step prof sched name clock ty).
  Notation pafter := (pafter prof sched name clock ty).

  Definition hooked (s : psys) (i : nat) (n : nat) (id : string) : Prop :=
    ∃ t, tasks (p_sys s) !! i = Some t ∧ (t_phase t = Hooked ∨ t_phase t = AfterHook) ∧ p_waits s !! i = Some n ∧ id = jid (t_job t).
  Definition started_ok (c : center) (tr : list obs) : Prop :=
    ∀ pre n id suf, tr = pre ++ OStart n id :: suf →
      (n < c_next c)%nat ∧ n ∉ nos c ∧ about n suf = [] ∧
      ∃ rest b, about n pre = OSend n (ty, RunHook id true) :: rest ++ [OEnd n b].

  Record pinv (s : psys) : Prop := {
    pi_c : cinv (p_center s) (p_trace s);
    pi_dead : alive (p_sys s) = false → tasks (p_sys s) = [];
    pi_len : length (p_waits s) = length (tasks (p_sys s));
    pi_wait : ∀ i n id, hooked s i n id →
      on_way (p_center s) (p_trace s) n (ty, RunHook id true) ∧ n ∉ waited (p_trace s);
    pi_diff : ∀ i j n id id', hooked s i n id → hooked s j n id' → i = j;
    pi_nodup : NoDup (waited (p_trace s));
    pi_started : started_ok (p_center s) (p_trace s);
    pi_runs : omap (λ o, match o with OStart _ id => Some id | _ => None end) (p_trace s) =
              map jid (runs (p_sys s));
  }.

  Lemma waited_elem n tr : n ∈ waited tr ↔ ∃ id, OStart n id ∈ tr.
  Proof.
    unfold waited. rewrite elem_of_list_omap. split.
    - intros (o & Ho & E). destruct o; try done. injection E as <-. eauto.
    - intros [id Hid]. by exists (OStart n id).
  Qed.
  Lemma waited_lt c tr n : started_ok c tr → n ∈ waited tr → (n < c_next c)%nat.
  Proof.
    intros H [id Hid]%waited_elem. apply elem_of_list_split in Hid as (pre & suf & E). by eapply H.
  Qed.

  Lemma dead_step' (s : sys world M) e :
    (alive s = false → tasks s = []) → alive (step s e).1 = false → tasks (step s e).1 = [].
  Proof.
    intros Hd. assert (alive (commit prof sched name h s e).1 = false → tasks (commit prof sched name h s e).1 = []) as Hc.
    { unfold commit. destruct (run h _ (sw s)) as [w [[[[c ts] js] r]| |]]; done. }
    unfold sys_step. destruct (alive s) eqn:Ea.
    - destruct e; try done; cbn; congruence.
    - destruct e; try done; cbn; auto. destruct e; cbn; auto.
  Qed.

  (** Executions in one event. *)
  Lemma step_runs (s : sys world M) e :
    runs (step s e).1 = runs s ++
      match e with
      | EvTask i _ =>
          match tasks s !! i with
          | Some t => match t_phase t with
                      | Hooked => if alive s then [bump (t_job t)] else []
                      | _ => [] end
          | None => [] end
      | _ => [] end.
  Proof.
    assert (∀ l : list (job M), l = l ++ []) as Hnil by (intros; by rewrite app_nil_r).
    unfold sys_step. destruct (alive s) eqn:Ea.
    - destruct e; cbn [fst runs]; try apply Hnil; unfold commit; cbn [ev_prog].
      + rewrite run_bind, run_run_with_config. done.
      + rewrite run_bind, run_cancel. done.
      + rewrite run_bind. unfold get_job. rewrite run_get. done.
      + rewrite run_bind, run_retry. done.
      + done.
      + rewrite run_bind, run_process_jobs. cbv zeta.
        destruct (do_pick prof name clock (max_processing_jobs (cfg s)) (sw s)) as [[w' js] o].
        destruct o; done || apply Hnil.
      + destruct (tasks s !! i) as [t|]; [|done]. rewrite run_bind. unfold task_step.
        destruct (t_phase t); [destruct (is_cancelled (t_job t))|..]; try done.
        rewrite run_bind, run_task_tail.
        destruct (snd (judge prof sched clock (reads (sw s)) (t_job t) u)); cbn; auto.
    - destruct e; cbn [fst runs]; try apply Hnil.
      + destruct (tasks s !! i) as [t|]; [destruct (t_phase t)|]; apply Hnil.
      + destruct e; apply Hnil.
      + unfold commit; cbn [ev_prog]. rewrite run_bind, run_process_jobs. cbv zeta.
        destruct (do_pick prof name clock (max_processing_jobs wq_config_default) (sw s)) as [[w' js] o].
        destruct o; done || apply Hnil.
  Qed.

  (** The centre acts, the queue does not. *)
  Lemma pinv_center s c' os :
    pinv s → cmove (p_center s) (p_trace s) c' os →
    pinv (PSys (p_sys s) c' (p_waits s) (p_trace s ++ os)).
  Proof.
    intros H Hm. assert (waited os = []) as Ew by (apply waited_nil, Hm).
    split; cbn.
    - apply Hm.
    - apply H.
    - apply H.
    - intros i n id Hh. rewrite waited_app, Ew, app_nil_r. destruct (pi_wait _ H i n id Hh). split; [by apply Hm|done].
    - apply H.
    - rewrite waited_app, Ew, app_nil_r. apply H.
    - intros pre n id suf E. apply start_snoc in E as [(suf' & E & ->)|(os1 & -> & ->)].
      + destruct (pi_started _ H _ _ _ _ E) as (H1 & H2 & H3 & H4).
        destruct (cm_old _ _ _ _ Hm n H1 H2) as [H5 H6].
        pose proof (cm_next _ _ _ _ Hm). split; [lia|]. split; [done|]. split; [|done].
        by rewrite about_app, H3, H5.
      + exfalso. apply (cm_quiet _ _ _ _ Hm n id). rewrite elem_of_app. right. by left.
    - rewrite omap_app, (pi_runs _ H).
      assert (∀ l, (∀ n id, OStart n id ∉ l) →
        omap (λ o, match o with OStart _ id => Some id | _ => None end) l = []) as Hq.
      { clear. induction l as [|o l IH]; intros Hl; [done|]. cbn.
        rewrite IH by (intros n id Hn; apply (Hl n id); by right).
        destruct o; try done. exfalso. eapply Hl. by left. }
      rewrite Hq by apply Hm. apply app_nil_r.
  Qed.

  Lemma hooked_on_lt s i n id : pinv s → hooked s i n id → (n < c_next (p_center s))%nat.
  Proof. intros H Hh. by apply (pi_wait _ H) in Hh as [[? _] _]. Qed.

  (** An event of the queue that starts no user code. *)
  Lemma pinv_queue s q' c' ws os (i0 : nat) (φ : nat → nat) :
    pinv s → cmove (p_center s) (p_trace s) c' os →
    (alive q' = false → tasks q' = []) → length ws = length (tasks q') → runs q' = runs (p_sys s) →
    (∀ i j, φ i = φ j → i = j) →
    (∀ i n id, hooked (PSys q' c' ws (p_trace s ++ os)) i n id →
      hooked s (φ i) n id ∨
      (n = c_next (p_center s) ∧ i = i0 ∧ on_way c' (p_trace s ++ os) n (ty, RunHook id true))) →
    pinv (PSys q' c' ws (p_trace s ++ os)).
  Proof.
    intros H Hm Hd Hl Hr Hinj Hh. pose proof (pinv_center s c' os H Hm) as Hc.
    assert (waited os = []) as Ew by (apply waited_nil, Hm).
    split.
    - apply Hc.
    - exact Hd.
    - exact Hl.
    - intros i n id Hi. cbn. destruct (Hh i n id Hi) as [Hs|(-> & -> & How)].
      + apply (pi_wait _ Hc (φ i) n id). exact Hs.
      + split; [done|]. rewrite waited_app, Ew, app_nil_r. intros Hw.
        apply (waited_lt _ _ _ (pi_started _ H)) in Hw. lia.
    - intros i j n id id' Hi Hj. destruct (Hh i n id Hi) as [Hs|(E & -> & _)].
      + destruct (Hh j n id' Hj) as [Hs'|(E & -> & _)].
        * apply Hinj. by eapply (pi_diff _ H).
        * apply (hooked_on_lt _ _ _ _ H) in Hs. lia.
      + destruct (Hh j n id' Hj) as [Hs'|(_ & -> & _)]; [|done].
        apply (hooked_on_lt _ _ _ _ H) in Hs'. lia.
    - apply Hc.
    - apply Hc.
    - cbn. rewrite Hr. apply Hc.
  Qed.

  Definition skip (i k : nat) : nat := if (k <? i)%nat then k else S k.
  Lemma skip_inj i k k' : skip i k = skip i k' → k = k'.
  Proof. unfold skip. destruct (Nat.ltb_spec k i), (Nat.ltb_spec k' i); lia. Qed.
  Lemma lookup_delete_skip {A} (l : list A) i k : delete i l !! k = l !! skip i k.
  Proof.
    unfold skip. destruct (Nat.ltb_spec k i); [by apply lookup_delete_lt|by apply lookup_delete_ge].
  Qed.

  Lemma post_one m c : (post ty [m] c) = (post1 c (MMsg ty m), [OSend (c_next c) (ty, m)]).
  Proof. done. Qed.

  Lemma pinv_ev s e : pinv s → pinv (pstep s (PEv e)).
  Proof.
    intros H. cbn [psys_step]. destruct (blocked s e) eqn:Eb; [done|].
    pose proof (dead_step' (p_sys s) e (pi_dead _ H)) as Hd.
    destruct (match e with EvTask _ _ => true | _ => false end) eqn:Et.
    - destruct e as [| | | | | |i u| | | |]; try done. clear Et. cbn [starts].
      destruct (tasks (p_sys s) !! i) as [t|] eqn:Eti.
      + assert (alive (p_sys s) = true) as Ha.
        { destruct (alive (p_sys s)) eqn:Ea; [done|]. by rewrite (pi_dead _ H Ea) in Eti. }
        assert (i < length (tasks (p_sys s)))%nat as Hi by by eapply lookup_lt_Some.
        assert (is_Some (p_waits s !! i)) as [n En].
        { apply lookup_lt_is_Some. by rewrite (pi_len _ H). }
        pose proof (step_poll prof sched name clock (p_sys s) i u t Ha Eti) as Hp. cbv zeta in Hp.
        pose proof (step_runs (p_sys s) (EvTask i u)) as Hr. cbv beta iota in Hr. rewrite Eti, Ha in Hr.
        pose proof (step_log prof sched name clock (p_sys s) (EvTask i u)) as Hlog.
        set (q' := (step (p_sys s) (EvTask i u)).1) in *. rewrite En.
        (* a task that is gone *)
        assert (∀ c' os, cmove (p_center s) (p_trace s) c' os →
          tasks q' = delete i (tasks (p_sys s)) ∨ tasks q' = [] → runs q' = runs (p_sys s) →
          pinv (PSys q' c' (new_waits (EvTask i u) (length (tasks (p_sys s))) (length (tasks q'))
            (c_next (p_center s)) (p_waits s)) (p_trace s ++ os))) as Hgone.
        { intros c' os Hm Hq Hrr.
          assert (length (tasks q') ≠ length (tasks (p_sys s)) ∧
            length (tasks q') <= length (delete i (p_waits s)))%nat as [Hne Hle].
          { destruct Hq as [-> | ->]; cbn; rewrite ?length_delete by (by rewrite ?En, ?Eti); pose proof (pi_len _ H); lia. }
          cbn [new_waits]. apply Nat.eqb_neq in Hne. rewrite Hne.
          eapply (pinv_queue s q' c' _ os 0%nat (skip i)); try done.
          - rewrite take_length. lia.
          - apply skip_inj.
          - intros k n' id (t' & H1 & H2 & H3 & H4). cbn in *. left. exists t'.
            assert (tasks (p_sys s) !! skip i k = Some t') as Hk.
            { rewrite <-lookup_delete_skip. destruct Hq as [E|E]; rewrite E in H1; done. }
            split; [done|]. split; [done|]. split; [|done]. rewrite <-lookup_delete_skip.
            rewrite lookup_take in H3; [done|]. by eapply lookup_lt_Some. }
        (* a task that goes on and sends its hook *)
        assert (∀ t', t_phase t' = Hooked ∨ t_phase t' = AfterHook → jid (t_job t') = jid (t_job t) →
          tasks q' = <[i := t']> (tasks (p_sys s)) →
          log (sw q') = log (sw (p_sys s)) ++ [RunHook (jid (t_job t)) true] →
          runs q' = runs (p_sys s) →
          pinv (let (c', os) := post ty (drop (length (log (sw (p_sys s)))) (log (sw q'))) (p_center s) in
                PSys q' c' (new_waits (EvTask i u) (length (tasks (p_sys s))) (length (tasks q'))
                  (c_next (p_center s)) (p_waits s)) (p_trace s ++ [] ++ os))) as Hsend.
        { intros t' Hph Hid Hq Hl Hrr. rewrite Hl, drop_app, post_one.
          pose proof (cmove_post1 (p_center s) (p_trace s) ty (RunHook (jid (t_job t)) true) (pi_c _ H)) as Hm.
          cbn [new_waits app]. rewrite Hq, insert_length, Nat.eqb_refl.
          eapply (pinv_queue s q' _ _ _ i (λ k, k)); try done.
          - rewrite Hq, !insert_length. apply H.
          - intros k n' id (t1 & H1 & H2 & H3 & H4). cbn in *. rewrite Hq in H1.
            destruct (decide (k = i)) as [->|Hk].
            + right. rewrite list_lookup_insert in H3 by (by rewrite (pi_len _ H)). injection H3 as <-.
              rewrite list_lookup_insert in H1 by done. injection H1 as <-. split; [done|]. split; [done|].
              rewrite H4, Hid. split; [cbn; lia|]. split.
              * exists []. rewrite about_snoc_eq by done. by rewrite (c_fresh _ _ (pi_c _ H)).
              * left. rewrite nos_post1, elem_of_app, elem_of_list_singleton. auto.
            + left. rewrite list_lookup_insert_ne in H1 by done. rewrite list_lookup_insert_ne in H3 by done. exists t1. done. }
        destruct (t_phase t) eqn:Ep.
        * destruct (is_cancelled (t_job t)).
          -- destruct Hp as [Hp1 Hp2]. rewrite Hp2, drop_all. cbn [post app].
             apply Hgone; [apply cmove_refl, H|by left|by rewrite Hr, app_nil_r].
          -- destruct Hp as [Hp1 Hp2]. eapply Hsend; [| |exact Hp1|exact Hp2|]; [by left|done|by rewrite Hr, app_nil_r].
        * (* user code starts *)
          destruct Hp as [Hp1 Hp2]. rewrite Hp2, drop_all. cbn [post app]. rewrite Ha.
          assert (hooked s i n (jid (t_job t))) as Hh by (exists t; auto).
          destruct (pi_wait _ H _ _ _ Hh) as [How Hnw].
          cbn [blocked] in Eb. rewrite Eti, En, Ep in Eb.
          assert (n ∉ nos (p_center s)) as Hn.
          { unfold unanswered in Eb. apply orb_false_iff in Eb as [Eb1 Eb2]. unfold nos. rewrite elem_of_app.
            intros [Hn|Hn]; apply elem_of_list_fmap in Hn as (x & -> & Hx); apply elem_of_list_In in Hx.
            - enough (existsb (λ f, (f_no x =? f_no f)%nat) (c_futs (p_center s)) = true) by congruence.
              apply existsb_exists. exists x. split; [done|apply Nat.eqb_refl].
            - enough (existsb (λ y, (x.1 =? y.1)%nat) (c_box (p_center s)) = true) by congruence.
              apply existsb_exists. exists x. split; [done|apply Nat.eqb_refl]. }
          destruct How as (Hlt & [rest Hrest] & [|(l & b & Hend)]); [done|].
          assert (∀ k, about k [OStart n (jid (t_job t))] = []) as Esil.
          { intros k. apply about_cons_ne; by intros []. }
          cbn [new_waits]. rewrite Hp1, insert_length, Nat.eqb_refl.
          assert (∀ k n' id, hooked (PSys q' (p_center s) (<[i:=c_next (p_center s)]> (p_waits s))
            (p_trace s ++ [OStart n (jid (t_job t))])) k n' id → k ≠ i ∧ hooked s k n' id) as Hold.
          { intros k n' id (t1 & H1 & H2 & H3 & H4). cbn in *. rewrite Hp1 in H1.
            destruct (decide (k = i)) as [->|Hk].
            - rewrite list_lookup_insert in H1 by done. injection H1 as <-. by destruct H2.
            - rewrite list_lookup_insert_ne in H1 by done. rewrite list_lookup_insert_ne in H3 by done. split; [done|]. by exists t1. }
          split; cbn.
          -- apply cinv_silent; [done| |apply H]. intros o ->%elem_of_list_singleton. done.
          -- done.
          -- rewrite Hp1, !insert_length. apply H.
          -- intros k n' id Hk. apply Hold in Hk as [Hki Hk]. destruct (pi_wait _ H _ _ _ Hk) as [H1 H2].
             split.
             ++ apply (on_way_keep (p_center s) (p_trace s)); auto.
             ++ rewrite waited_app. cbn. rewrite elem_of_app, elem_of_list_singleton.
                intros [| ->]; [done|]. apply Hki. by eapply (pi_diff _ H).
          -- intros k k' n' id id' [_ Hk]%Hold [_ Hk']%Hold. by eapply (pi_diff _ H).
          -- rewrite waited_app. cbn. apply NoDup_app. split; [apply H|]. split; [|apply NoDup_singleton].
             intros x Hx ->%elem_of_list_singleton. done.
          -- intros pre n' id suf E. apply start_snoc in E as [(suf' & E & ->)|(os1 & -> & E)].
             ++ destruct (pi_started _ H _ _ _ _ E) as (H1 & H2 & H3 & H4).
                split; [done|]. split; [done|]. split; [|done]. by rewrite about_app, H3, Esil.
             ++ destruct os1 as [|o1 os1]; cbn in E.
                ** injection E as <- <- <-. rewrite app_nil_r. split; [done|]. split; [done|]. split; [done|].
                   destruct l as [|o l]; rewrite Hrest in Hend; [done|]. injection Hend as <- ->.
                   exists l, b. by rewrite Hrest.
                ** exfalso. apply (f_equal length) in E. cbn in E. rewrite app_length in E. cbn in E. lia.
          -- rewrite omap_app, (pi_runs _ H), Hr, map_app. done.
        * destruct Hp as [Hp1 Hp2]. eapply Hsend; [| |exact Hp1|exact Hp2|]; [by right|done|by rewrite Hr, app_nil_r].
        * pose proof (cmove_post ty (drop (length (log (sw (p_sys s)))) (log (sw q'))) _ _ (pi_c _ H)) as Hm.
          destruct (post ty _ (p_center s)) as [c' os]. cbn [app]. apply Hgone; [done|done|by rewrite Hr, app_nil_r].
      + destruct (step_poll_none prof sched name clock (p_sys s) i u) as [E1 E2]; [by right|].
        pose proof (step_runs (p_sys s) (EvTask i u)) as Hr. cbv beta iota in Hr. rewrite Eti, app_nil_r in Hr.
        rewrite E2, drop_all. cbn [post app new_waits]. rewrite E1, Nat.eqb_refl.
        assert (<[i:=c_next (p_center s)]> (p_waits s) = p_waits s) as ->.
        { apply list_insert_ge. rewrite (pi_len _ H). by apply lookup_ge_None. }
        eapply (pinv_queue s _ _ _ [] 0%nat (λ k, k)); try done.
        * apply cmove_refl, H.
        * rewrite E1. apply H.
        * intros k n' id (t1 & H1 & H2 & H3 & H4). cbn in *. rewrite E1 in H1. left. by exists t1.
    - assert (starts s e = []) as Es by by destruct e.
      assert (runs (step (p_sys s) e).1 = runs (p_sys s)) as Hr.
      { rewrite step_runs. destruct e; try done; apply app_nil_r. }
      set (q' := (step (p_sys s) e).1) in *.
      set (ws := new_waits e (length (tasks (p_sys s))) (length (tasks q')) (c_next (p_center s)) (p_waits s)).
      assert (ws = take (length (tasks q')) (p_waits s ++ replicate (length (tasks q')) (c_next (p_center s)))) as Ews
        by by destruct e.
      assert (length ws = length (tasks q')) as Hlen.
      { rewrite Ews, take_length, app_length, replicate_length. lia. }
      destruct (match e with EvCrash | EvCrashIn _ _ => true | _ => false end) eqn:Ec.
      + assert (tasks q' = []) as Hq.
        { apply Hd. unfold q', sys_step. destruct (alive (p_sys s)) eqn:Ea; destruct e; try done.
          destruct e; done. }
        assert (ws = []) as Ews2.
        { apply nil_length_inv. by rewrite Hlen, Hq. }
        assert (pinv (PSys q' (Center [] [] [] (c_next (p_center s))) ws (p_trace s ++ [OCrash]))) as Hgoal;
          [|destruct e; try done; exact Hgoal].
        assert (waited [OCrash] = []) as Ew by done.
        split; cbn.
        * apply crash_inv, H.
        * done.
        * done.
        * intros i n id (t & H1 & _). cbn in H1. by rewrite Hq in H1.
        * intros i j n id id' (t & H1 & _). cbn in H1. by rewrite Hq in H1.
        * rewrite waited_app, Ew, app_nil_r. apply H.
        * intros pre n id suf E. apply start_snoc in E as [(suf' & E & ->)|(os1 & -> & E)].
          -- destruct (pi_started _ H _ _ _ _ E) as (H1 & H2 & H3 & H4). split; [done|]. split.
             ++ intros Hn. by apply elem_of_nil in Hn.
             ++ split; [|done]. by rewrite about_app, H3.
          -- destruct os1 as [|o1 [|]]; cbn in E; done.
        * rewrite omap_app, (pi_runs _ H), Hr. cbn. by rewrite app_nil_r.
      + pose proof (cmove_post ty (drop (length (log (sw (p_sys s)))) (log (sw q'))) _ _ (pi_c _ H)) as Hm.
        assert (pinv (let (c', os) := post ty (drop (length (log (sw (p_sys s)))) (log (sw q'))) (p_center s) in
          PSys q' c' ws (p_trace s ++ starts s e ++ os))) as Hgoal; [|destruct e; try done; exact Hgoal].
        rewrite Es. destruct (post ty _ (p_center s)) as [c' os]. cbn [app fst snd] in *.
        eapply (pinv_queue s q' c' ws os 0%nat (λ k, k)); try done.
        intros k n id (t1 & H1 & H2 & H3 & H4). cbn in *. left.
        assert (tasks (p_sys s) !! k = Some t1) as Hk.
        { destruct (step_tasks prof sched name clock (p_sys s) e k t1); [by destruct e|exact H1|done|destruct H2; congruence]. }
        exists t1. split; [done|]. split; [done|]. split; [|done].
        rewrite Ews, lookup_take in H3 by by eapply lookup_lt_Some.
        rewrite lookup_app_l in H3; [done|]. rewrite (pi_len _ H). by eapply lookup_lt_Some.
  Qed.

  Lemma pinv_step s e : pinv s → pinv (pstep s e).
  Proof.
    intros H. destruct e.
    - by apply pinv_ev.
    - cbn. rewrite <-(app_nil_r (p_trace s)). apply pinv_center; [done|]. apply cmove_register, H.
    - cbn. apply (pinv_center s (post1 (p_center s) (MMsg ty' m)) [OSend (c_next (p_center s)) (ty', m)]); [done|].
      apply cmove_post1, H.
    - cbn [psys_step]. pose proof (cmove_handle _ _ (pi_c _ H)) as Hm.
      destruct (handle (p_center s)) as [c' os]. by apply pinv_center.
    - cbn [psys_step]. pose proof (cmove_poll _ _ i ok (pi_c _ H)) as Hm.
      destruct (poll (p_center s) i ok) as [c' os]. by apply pinv_center.
  Qed.
  Lemma pinv_init : pinv psys_init.
  Proof.
    split; cbn; try done.
    - apply cinv_init.
    - intros i n id (t & H & _). done.
    - intros i j n id id' (t & H & _). done.
    - constructor.
    - intros [] ????; done.
  Qed.
  Lemma pinv_after es : pinv (pafter es).
  Proof.
    unfold pafter, psys_run. generalize pinv_init. generalize (psys_init : psys).
    induction es as [|e es IH]; intros s H; [done|]. cbn [fold_left]. apply IH. by apply pinv_step.
  Qed.
End psys_facts.
