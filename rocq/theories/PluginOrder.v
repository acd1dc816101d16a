(** Which calls plugins get, and in which order. *)
From Coq Require Import Sorting.Sorted.
From Verif Require Import SpecPlugin JsonFacts BackendFacts WorldFacts MicroFacts LifeFacts HistFacts.
From Verif Require Import PluginFacts NoteFacts.

Lemma sends_app tr os : sends (tr ++ os) = sends tr ++ sends os.
Proof. apply omap_app. Qed.
Lemma calls_of_app p tr os : calls_of p (tr ++ os) = calls_of p tr ++ calls_of p os.
Proof. apply omap_app. Qed.
Lemma elem_sends n m tr : (n, m) ∈ sends tr ↔ ∃ t, OSend n (t, m) ∈ tr.
Proof.
  unfold sends. rewrite elem_of_list_omap. split.
  - intros (o & Ho & E). destruct o as [|? [t ?]| | | | |]; try done. injection E as <- <-. eauto.
  - intros [t H]. by exists (OSend n (t, m)).
Qed.
Lemma elem_calls_of p n c tr : (n, c) ∈ calls_of p tr ↔ OCall n p c ∈ tr.
Proof.
  unfold calls_of. rewrite elem_of_list_omap. split.
  - intros (o & Ho & E). destruct o; try done. destruct (decide (p0 = p)); [|done]. simplify_eq. done.
  - intros H. exists (OCall n p c). split; [done|]. cbn. by rewrite decide_True.
Qed.
Lemma elem_about n o tr : is_about n o → (o ∈ tr ↔ o ∈ about n tr).
Proof. intros H. unfold about. rewrite elem_of_list_filter. naive_solver. Qed.

Lemma post_sends ty ms c : sends (post ty ms c).2 = imap (λ i m, (c_next c + i, m)%nat) ms.
Proof.
  revert c. induction ms as [|m ms IH]; intros c; [done|]. cbn [post].
  specialize (IH (Center (c_plugins c) (c_box c ++ [(c_next c, MMsg ty m)]) (c_futs c) (S (c_next c)))).
  destruct (post ty ms _) as [c' os]. cbn in *. rewrite Nat.add_0_r. f_equal. rewrite IH.
  apply imap_ext. intros i x _. cbn. f_equal. lia.
Qed.
Lemma post_only ty ms c o : o ∈ (post ty ms c).2 → ∃ n m, o = OSend n (ty, m) ∧ m ∈ ms.
Proof.
  revert c. induction ms as [|m ms IH]; intros c; [by intros ?%elem_of_nil|]. cbn [post].
  specialize (IH (Center (c_plugins c) (c_box c ++ [(c_next c, MMsg ty m)]) (c_futs c) (S (c_next c)))).
  destruct (post ty ms _) as [c' os]. cbn [snd] in *. rewrite elem_of_cons. intros [->|H].
  - exists (c_next c), m. split; [done|by left].
  - destruct (IH H) as (n & m' & -> & Hm). exists n, m'. split; [done|by right].
Qed.
Lemma post_sends_msgs ty ms c : map snd (sends (post ty ms c).2) = ms.
Proof.
  rewrite post_sends. apply list_eq. intros i. rewrite list_lookup_fmap, list_lookup_imap.
  by destruct (ms !! i).
Qed.
Lemma handle_only c o : o ∈ (handle c).2 → (∃ p, o = OReg p) ∨ (∃ n ty ps, o = OHandle n ty ps).
Proof.
  unfold handle. destruct (c_box c) as [|[n [p|ty m]] box]; cbn; rewrite ?elem_of_list_singleton.
  - by intros ?%elem_of_nil.
  - intros ->. left. eauto.
  - intros ->. right. eauto.
Qed.
Lemma poll_only c i ok o : o ∈ (poll c i ok).2 → (∃ n p k, o = OCall n p k) ∨ (∃ n b, o = OEnd n b).
Proof.
  unfold poll. destruct (c_futs c !! i); [|by intros ?%elem_of_nil].
  destruct (forallb _ _); [|by intros ?%elem_of_nil].
  destruct (next_plugin _ _) as [[p rest]|]; [destruct ok|]; cbn; rewrite ?elem_of_cons, ?elem_of_nil;
    naive_solver.
Qed.
Lemma sends_nil os : (∀ n tm, OSend n tm ∉ os) → sends os = [].
Proof.
  intros H. destruct (sends os) as [|[n m] l] eqn:E; [done|].
  exfalso. destruct (proj1 (elem_sends n m os)) as [t Ht]; [rewrite E; by left|]. by apply (H n (t, m)).
Qed.
Lemma calls_nil p os : (∀ n c, OCall n p c ∉ os) → calls_of p os = [].
Proof.
  intros H. destruct (calls_of p os) as [|[n c] l] eqn:E; [done|].
  exfalso. apply (H n c), elem_calls_of. rewrite E. by left.
Qed.

Lemma sorted_app_lt (l l' : list nat) :
  StronglySorted lt (l ++ l') → StronglySorted lt l ∧ ∀ x y, x ∈ l → y ∈ l' → (x < y)%nat.
Proof.
  induction l as [|x l IH]; cbn; intros H.
  - split; [constructor|]. by intros x y ?%elem_of_nil.
  - apply StronglySorted_inv in H as [H1 H2]. apply IH in H1 as [H1 H3].
    rewrite list.Forall_forall in H2. split.
    + constructor; [done|]. rewrite list.Forall_forall. intros y Hy. apply H2. rewrite elem_of_app. by left.
    + intros y z [->|Hy]%elem_of_cons Hz; [|by apply H3]. apply H2. rewrite elem_of_app. by right.
Qed.
Lemma sorted_lookup_lt (l : list nat) i j x y :
  StronglySorted lt l → l !! i = Some x → l !! j = Some y → (i < j)%nat → (x < y)%nat.
Proof.
  revert i j. induction l as [|z l IH]; intros i j H Hi Hj Hij; [done|].
  apply StronglySorted_inv in H as [H1 H2]. rewrite list.Forall_forall in H2.
  destruct j as [|j]; [lia|]. destruct i as [|i]; cbn in *.
  - injection Hi as ->. apply H2. by eapply elem_of_list_lookup_2.
  - eapply (IH i j); [done|done|done|lia].
Qed.
Lemma delete_lookup_ne {A} i (l : list A) x : x ∈ delete i l → ∃ k, k ≠ i ∧ l !! k = Some x.
Proof.
  revert i. induction l as [|z l IH]; intros [|i]; cbn.
  - by intros ?%elem_of_nil.
  - by intros ?%elem_of_nil.
  - intros [k Hk]%elem_of_list_lookup. by exists (S k).
  - intros [->|H]%elem_of_cons; [by exists 0%nat|]. destruct (IH i H) as (k & H1 & H2).
    exists (S k). split; [lia|done].
Qed.
Lemma sorted_ext (l l' : list nat) :
  StronglySorted lt l → StronglySorted lt l' → (∀ x, x ∈ l ↔ x ∈ l') → l = l'.
Proof.
  intros H. revert l'. induction H as [|x l Hl IH Hx]; intros l' H' E.
  - destruct l' as [|y l']; [done|]. exfalso. apply (elem_of_nil y), E. by left.
  - destruct l' as [|y l']. { exfalso. apply (elem_of_nil x), E. by left. }
    apply StronglySorted_inv in H' as [H1 H2]. rewrite list.Forall_forall in Hx, H2.
    assert (x = y) as ->.
    { assert (x ∈ y :: l') as [->|Hxl]%elem_of_cons by (apply E; by left); [done|].
      assert (y ∈ x :: l) as [->|Hyl]%elem_of_cons by (apply E; by left); [done|].
      specialize (Hx y Hyl). specialize (H2 x Hxl). lia. }
    f_equal. apply IH; [done|]. intros z. specialize (E z). rewrite !elem_of_cons in E.
    split; intros Hz.
    + destruct (proj1 E (or_intror Hz)) as [->|]; [|done]. specialize (Hx y Hz). lia.
    + destruct (proj2 E (or_intror Hz)) as [->|]; [|done]. specialize (H2 y Hz). lia.
Qed.

(** *** Hook messages are before-hooks *)
Definition good_msg (m : msg) : Prop := match m with RunHook _ b => b = true | _ => True end.

Section order.
  Context {M : Type} `{SM : Serde M}.
  Context (prof : profile).
  Context (sched : string → option (time → option time)).
  Context (name : string).
  Context (clock : nat → time).
  Context (ty : nat).
  Notation h := (mem_h clock).
  Notation step := (sys_step prof sched name h).
  Notation psys := (psys M).
  Notation pstep := (psys_step prof sched name clock ty).
  Notation prun := (psys_run prof sched name clock ty).
  Notation pafter := (pafter prof sched name clock ty).
  Notation qevents := (queue_events prof sched name clock ty).

  Lemma mem_h_good X (e : eff X) w l : may_do M l e → Forall good_msg (log w) → Forall good_msg (log (h X e w).1).
  Proof.
    intros Hm H. destruct e as [| | | | | | | |m]; cbn; try done.
    - by destruct (mem_move _ _ _ _ _ _).
    - apply Forall_app. split; [done|]. constructor; [|constructor]. by destruct m.
  Qed.
  Lemma run_good {A} (p : prog A) l w :
    honest M l p → Forall good_msg (log w) → Forall good_msg (log (run h p w).1).
  Proof.
    revert l w. induction p as [a| | |X e k IH]; intros l w Hp Hw; cbn in *; try done.
    destruct Hp as [H1 H2]. pose proof (mem_h_good X e w l H1 Hw) as H3.
    destruct (h X e w) as [w' x]. by apply (IH x (wrote e x)).
  Qed.
  Lemma run_n_good {A} n (p : prog A) l w :
    honest M l p → Forall good_msg (log w) → Forall good_msg (log (run_n h n p w)).
  Proof.
    revert p l w. induction n as [|n IH]; intros p l w Hp Hw; [done|].
    destruct p as [a| | |X e k]; cbn in *; try done.
    destruct Hp as [H1 H2]. pose proof (mem_h_good X e w l H1 Hw) as H3.
    destruct (h X e w) as [w' x]. by apply (IH (k x) (wrote e x)).
  Qed.
  Lemma step_good (s : sys world M) e :
    Forall good_msg (log (sw s)) → Forall good_msg (log (sw (step s e).1)).
  Proof.
    intros Hs. assert (∀ e', Forall good_msg (log (sw (commit prof sched name h s e').1))) as Hc.
    { intros e'. unfold commit.
      pose proof (run_good (ev_prog prof sched name (cfg s) (tasks s) e') None (sw s) (honest_ev_prog _ _ _ _ _ _) Hs) as H.
      by destruct (run _ _ _) as [w [[[[c ts] js] r]| |]]. }
    assert (∀ e' n, Forall good_msg (log (run_n h n (ev_prog prof sched name (cfg s) (tasks s) e') (sw s)))) as Hn.
    { intros e' n. apply (run_n_good n _ None); [apply honest_ev_prog|exact Hs]. }
    unfold sys_step. destruct (alive s).
    - destruct e as [| | | | | | | | |e' n|]; try apply Hc; try done. destruct e'; try apply Hn; done.
    - destruct e as [| | | | | | | | |e' n|]; try apply Hc; try done. destruct e'; try apply Hn; done.
  Qed.

  (** What a step of the whole adds to the trace. *)
  Lemma pstep_trace (s : psys) e :
    ∃ os, p_trace (pstep s e) = p_trace s ++ os ∧
      ∀ o, o ∈ os → match o with
        | OSend _ tm =>
            match e with
            | PEv e' => tm.1 = ty ∧ tm.2 ∈ drop (length (log (sw (p_sys s)))) (log (sw (step (p_sys s) e').1))
            | POther t m' => tm = (t, m')
            | _ => False
            end
        | OCall _ _ _ | OEnd _ _ => ∃ i ok, e = PPoll i ok
        | OReg _ | OHandle _ _ _ => e = PHandle
        | OStart _ _ => ∃ e', e = PEv e'
        | OCrash => ¬ one_process e
        end.
  Proof.
    destruct e as [e|p|ty' m| |i ok]; cbn [psys_step].
    - destruct (blocked s e). { exists []. rewrite app_nil_r. split; [done|]. by intros o ?%elem_of_nil. }
      set (q' := (step (p_sys s) e).1).
      assert (∃ os, p_trace (let (c', os) := post ty (drop (length (log (sw (p_sys s)))) (log (sw q'))) (p_center s) in
          PSys q' c' (new_waits e (length (tasks (p_sys s))) (length (tasks q')) (c_next (p_center s)) (p_waits s))
            (p_trace s ++ starts s e ++ os)) = p_trace s ++ os ∧
        ∀ o, o ∈ os → match o with
          | OSend _ tm => tm.1 = ty ∧ tm.2 ∈ drop (length (log (sw (p_sys s)))) (log (sw q'))
          | OStart _ _ => True | _ => False end) as (os & E & Hos).
      { pose proof (post_only ty (drop (length (log (sw (p_sys s)))) (log (sw q'))) (p_center s)) as Hp.
        destruct (post ty _ (p_center s)) as [c' os]. exists (starts s e ++ os). split; [done|].
        intros o. rewrite elem_of_app. intros [Ho|Ho].
        - unfold starts in Ho. destruct e; try by apply elem_of_nil in Ho.
          destruct (tasks (p_sys s) !! i) as [t|]; [|by apply elem_of_nil in Ho].
          destruct (p_waits s !! i); [|by apply elem_of_nil in Ho].
          destruct (t_phase t); try by apply elem_of_nil in Ho.
          destruct (alive (p_sys s)); [|by apply elem_of_nil in Ho].
          apply elem_of_list_singleton in Ho. by subst.
        - by destruct (Hp o Ho) as (n & m & -> & Hm). }
      assert (∃ os, p_trace (match e with
          | EvCrash | EvCrashIn _ _ => PSys q' (Center [] [] [] (c_next (p_center s)))
              (new_waits e (length (tasks (p_sys s))) (length (tasks q')) (c_next (p_center s)) (p_waits s)) (p_trace s ++ [OCrash])
          | _ => let (c', os) := post ty (drop (length (log (sw (p_sys s)))) (log (sw q'))) (p_center s) in
              PSys q' c' (new_waits e (length (tasks (p_sys s))) (length (tasks q')) (c_next (p_center s)) (p_waits s))
              (p_trace s ++ starts s e ++ os)
          end) = p_trace s ++ os ∧
        ∀ o, o ∈ os → match o with
          | OSend _ tm => tm.1 = ty ∧ tm.2 ∈ drop (length (log (sw (p_sys s)))) (log (sw q'))
          | OStart _ _ => True | OCrash => ¬ one_process (PEv e) | _ => False end) as (os' & E' & Hos').
      { destruct e; try (exists os; split; [exact E|]; intros o Ho; specialize (Hos o Ho); by destruct o).
        - exists [OCrash]. split; [done|]. intros o Ho%elem_of_list_singleton. subst. by intros ?.
        - exists [OCrash]. split; [done|]. intros o Ho%elem_of_list_singleton. subst. by intros ?. }
      exists os'. split; [exact E'|]. intros o Ho. specialize (Hos' o Ho). destruct o; try done. eauto.
    - exists []. rewrite app_nil_r. split; [done|]. by intros o ?%elem_of_nil.
    - exists [OSend (c_next (p_center s)) (ty', m)]. split; [done|]. intros o Ho%elem_of_list_singleton. by subst.
    - pose proof (handle_only (p_center s)) as Hh. destruct (handle (p_center s)) as [c' os].
      exists os. split; [done|]. intros o Ho. by destruct (Hh o Ho) as [(p & ->)|(n & ty' & ps & ->)].
    - pose proof (poll_only (p_center s) i ok) as Hh. destruct (poll (p_center s) i ok) as [c' os].
      exists os. split; [done|]. intros o Ho. destruct (Hh o Ho) as [(n & p & k & ->)|(n & b & ->)]; eauto.
  Qed.

  Lemma p_sys_step (s : psys) e :
    p_sys (pstep s e) =
    match e with
    | PEv e' => if blocked s e' then p_sys s else (step (p_sys s) e').1
    | _ => p_sys s
    end.
  Proof.
    destruct e as [e|p|ty' m| |i ok]; cbn [psys_step]; try done.
    - destruct (blocked s e); [done|]. destruct e; try done; by destruct (post _ _ _).
    - by destruct (handle _).
    - by destruct (poll _ _ _).
  Qed.

  Lemma prun_queue es (s : psys) :
    p_sys (prun s es) = sys_run prof sched name h (p_sys s) (qevents s es).
  Proof.
    revert s. induction es as [|e es IH]; intros s; [done|].
    change (prun s (e :: es)) with (prun (pstep s e) es). rewrite IH, p_sys_step. cbn [queue_events].
    destruct e as [e| | | |]; try done. destruct (blocked s e); [done|]. cbn [app]. by rewrite go_cons.
  Qed.

  Lemma prun_good es (s : psys) :
    Forall (λ e : pevent M, no_after_message e) es →
    Forall good_msg (log (sw (p_sys s))) → (∀ n tm, OSend n tm ∈ p_trace s → good_msg tm.2) →
    ∀ n tm, OSend n tm ∈ p_trace (prun s es) → good_msg tm.2.
  Proof.
    intros Hes. revert s. induction Hes as [|e es He Hes IH]; intros s H1 H2; [done|].
    change (prun s (e :: es)) with (prun (pstep s e) es). apply IH.
    - rewrite p_sys_step. destruct e; try done. destruct (blocked s e); [done|]. by apply step_good.
    - intros n m. destruct (pstep_trace s e) as (os & -> & Hos). rewrite elem_of_app. intros [H|H]; [eauto|].
      specialize (Hos _ H). cbn in Hos. destruct e as [e|p|ty' m'| |i ok]; try done.
      + assert (Forall good_msg (log (sw (step (p_sys s) e).1))) as Hg by by apply step_good.
        rewrite list.Forall_forall in Hg. destruct Hos as [_ Hos]. apply Hg. rewrite <-(take_drop (length (log (sw (p_sys s))))), elem_of_app. by right.
      + subst m. by destruct m'.
  Qed.

  Lemma story_call n p c l : story n l → OCall n p c ∈ l → ∃ t m, OSend n (t, m) ∈ l ∧ asks m c.
  Proof.
    assert (∀ c' ps, OCall n p c ∈ calls_to n c' ps → c' = c) as Hc.
    { intros c' ps (q & E & _)%elem_of_list_fmap. by injection E. }
    destruct 1 as [|m|m c' ty' ps called todo Ha _|m c' ty' ps Ha|m c' ty' ps called q todo Ha _];
      rewrite ?elem_of_cons, ?elem_of_app, ?elem_of_list_singleton, ?elem_of_nil; intros Hin.
    - done.
    - naive_solver.
    - exists ty', m. split; [by left|]. destruct Hin as [|[|H]]; try done. by rewrite <-(Hc _ _ H).
    - exists ty', m. split; [by left|]. destruct Hin as [|[|[H|]]]; try done. by rewrite <-(Hc _ _ H).
    - exists ty', m. split; [by left|]. destruct Hin as [|[|[H|]]]; try done. by rewrite <-(Hc _ _ H).
  Qed.
  Lemma call_sent es n p c : OCall n p c ∈ p_trace (pafter es) → ∃ t m, OSend n (t, m) ∈ p_trace (pafter es) ∧ asks m c.
  Proof.
    intros H. pose proof (c_story _ _ (pi_c ty _ (pinv_after prof sched name clock ty es)) n) as Hs.
    apply (elem_about n) in H; [|done]. destruct (story_call n p c _ Hs H) as (t & m & Hm & Ha).
    exists t, m. split; [|done]. by apply (elem_about n) in Hm.
  Qed.
  Lemma never_after es n p id :
    Forall (λ e : pevent M, no_after_message e) es → OCall n p (CallAfter id) ∉ p_trace (pafter es).
  Proof.
    intros Hes Hin. destruct (call_sent es n p _ Hin) as (t & m & Hm & Ha).
    pose proof (prun_good es psys_init Hes (Forall_nil_2 _) (λ n m H, match elem_of_nil _ with conj f _ => False_ind _ (f H) end) n (t, m) Hm) as Hg.
    inversion Ha; subst. done.
  Qed.

  (** *** The messages sent are those of the queue *)
  Lemma prun_sends es (s : psys) :
    Forall (λ e : pevent M, one_process e ∧ one_queue e) es →
    map snd (sends (p_trace s)) = log (sw (p_sys s)) →
    map snd (sends (p_trace (prun s es))) = log (sw (p_sys (prun s es))).
  Proof.
    intros Hes. revert s. induction Hes as [|e es [He1 He2] Hes IH]; intros s Hs; [done|].
    change (prun s (e :: es)) with (prun (pstep s e) es). apply IH. rewrite p_sys_step.
    destruct e as [e|p|ty' m| |i ok]; try done.
    - cbn [psys_step]. destruct (blocked s e) eqn:Eb; [done|].
      destruct (step_log prof sched name clock (p_sys s) e) as [ms Ems].
      set (q' := (step (p_sys s) e).1) in *. rewrite Ems. rewrite drop_app.
      assert (map snd (sends (p_trace (let (c', os) := post ty ms (p_center s) in
         PSys q' c' (new_waits e (length (tasks (p_sys s))) (length (tasks q')) (c_next (p_center s)) (p_waits s))
         (p_trace s ++ starts s e ++ os)))) = log (sw (p_sys s)) ++ ms) as H; [|by destruct e].
      pose proof (post_sends_msgs ty ms (p_center s)) as Hp. destruct (post ty ms (p_center s)) as [c' os].
      cbn [p_trace snd] in *. rewrite !sends_app, !map_app, Hs, Hp.
      rewrite (sends_nil (starts s e)); [done|]. intros n m. unfold starts. destruct e; try by intros ?%elem_of_nil.
      destruct (tasks (p_sys s) !! i) as [t|]; [|by intros ?%elem_of_nil].
      destruct (p_waits s !! i); [|by intros ?%elem_of_nil].
      destruct (t_phase t); try by intros ?%elem_of_nil.
      destruct (alive (p_sys s)); [|by intros ?%elem_of_nil]. by intros ?%elem_of_list_singleton.
    - cbn [psys_step]. pose proof (handle_only (p_center s)) as Hh. destruct (handle (p_center s)) as [c' os].
      cbn [p_trace]. rewrite sends_app, (sends_nil os), app_nil_r; [done|].
      intros n m H. by destruct (Hh _ H) as [(?&?)|(?&?&?&?)].
    - cbn [psys_step]. pose proof (poll_only (p_center s) i ok) as Hh. destruct (poll (p_center s) i ok) as [c' os].
      cbn [p_trace]. rewrite sends_app, (sends_nil os), app_nil_r; [done|].
      intros n m H. by destruct (Hh _ H) as [(?&?&?&?)|(?&?&?)].
  Qed.

  (** *** Numbers *)
  Definition sent_ok (c : center) (tr : list obs) : Prop :=
    StronglySorted lt (map fst (sends tr)) ∧ ∀ n, n ∈ map fst (sends tr) → (n < c_next c)%nat.
  Lemma sent_silent c c' tr os :
    (c_next c <= c_next c')%nat → sends os = [] → sent_ok c tr → sent_ok c' (tr ++ os).
  Proof.
    intros H E [H1 H2]. unfold sent_ok. rewrite sends_app, E, app_nil_r. split; [done|].
    intros n Hn. specialize (H2 n Hn). lia.
  Qed.
  Lemma sent_post ty' ms c tr : sent_ok c tr → sent_ok (post ty' ms c).1 (tr ++ (post ty' ms c).2).
  Proof.
    revert c tr. induction ms as [|m ms IH]; intros c tr [H1 H2]; cbn [post]; [by rewrite app_nil_r|].
    specialize (IH (Center (c_plugins c) (c_box c ++ [(c_next c, MMsg ty' m)]) (c_futs c) (S (c_next c)))
      (tr ++ [OSend (c_next c) (ty', m)])).
    destruct (post ty' ms _) as [c' os]. cbn [fst snd] in *.
    change (OSend (c_next c) (ty', m) :: os) with ([OSend (c_next c) (ty', m)] ++ os). rewrite app_assoc. apply IH.
    unfold sent_ok. rewrite sends_app, map_app. cbn. split.
    - by apply sorted_snoc.
    - intros n. rewrite elem_of_app, elem_of_list_singleton. intros [Hn|Hn]; [specialize (H2 n Hn)|]; lia.
  Qed.
  Lemma starts_sends (s : psys) e : sends (starts s e) = [].
  Proof.
    apply sends_nil. intros n m. unfold starts. destruct e; try by intros ?%elem_of_nil.
    destruct (tasks (p_sys s) !! i) as [t|]; [|by intros ?%elem_of_nil].
    destruct (p_waits s !! i); [|by intros ?%elem_of_nil].
    destruct (t_phase t); try by intros ?%elem_of_nil.
    destruct (alive (p_sys s)); [|by intros ?%elem_of_nil]. by intros ?%elem_of_list_singleton.
  Qed.
  Lemma starts_calls (s : psys) e p : calls_of p (starts s e) = [].
  Proof.
    apply calls_nil. intros n m. unfold starts. destruct e; try by intros ?%elem_of_nil.
    destruct (tasks (p_sys s) !! i) as [t|]; [|by intros ?%elem_of_nil].
    destruct (p_waits s !! i); [|by intros ?%elem_of_nil].
    destruct (t_phase t); try by intros ?%elem_of_nil.
    destruct (alive (p_sys s)); [|by intros ?%elem_of_nil]. by intros ?%elem_of_list_singleton.
  Qed.
  Lemma handle_next c : c_next (handle c).1 = c_next c.
  Proof. unfold handle. by destruct (c_box c) as [|[n [p|ty' m]] box]. Qed.
  Lemma poll_next c i ok : c_next (poll c i ok).1 = c_next c.
  Proof.
    unfold poll. destruct (c_futs c !! i); [|done]. destruct (forallb _ _); [|done].
    destruct (next_plugin _ _) as [[p rest]|]; [by destruct ok|done].
  Qed.
  Lemma sent_step (s : psys) e :
    sent_ok (p_center s) (p_trace s) → sent_ok (p_center (pstep s e)) (p_trace (pstep s e)).
  Proof.
    intros H. destruct e as [e|p|ty' m| |i ok]; cbn [psys_step].
    - destruct (blocked s e); [done|].
      set (q' := (step (p_sys s) e).1). set (ms := drop _ _).
      assert (sent_ok (p_center s) (p_trace s ++ starts s e)) as Hs.
      { eapply (sent_silent _ _ _ _ (le_n _)); [apply starts_sends|exact H]. }
      pose proof (sent_post ty ms (p_center s) _ Hs) as Hp.
      destruct e; try (destruct (post ty ms (p_center s)) as [c' os]; cbn [fst snd p_center p_trace] in *;
        rewrite <-app_assoc in Hp; exact Hp).
      + by eapply (sent_silent (p_center s)).
      + by eapply (sent_silent (p_center s)).
    - cbn. rewrite <-(app_nil_r (p_trace s)). eapply (sent_silent (p_center s)); [cbn; lia|done|done].
    - exact (sent_post ty' [m] _ _ H).
    - pose proof (handle_only (p_center s)) as Hh. pose proof (handle_next (p_center s)) as Hn.
      destruct (handle (p_center s)) as [c' os]. cbn in *. eapply (sent_silent (p_center s)); [lia| |done].
      apply sends_nil. intros n m Hin. by destruct (Hh _ Hin) as [(?&?)|(?&?&?&?)].
    - pose proof (poll_only (p_center s) i ok) as Hh. pose proof (poll_next (p_center s) i ok) as Hn.
      destruct (poll (p_center s) i ok) as [c' os]. cbn in *. eapply (sent_silent (p_center s)); [lia| |done].
      apply sends_nil. intros n m Hin. by destruct (Hh _ Hin) as [(?&?&?&?)|(?&?&?)].
  Qed.
  Lemma sent_run es (s : psys) :
    sent_ok (p_center s) (p_trace s) → sent_ok (p_center (prun s es)) (p_trace (prun s es)).
  Proof.
    revert s. induction es as [|e es IH]; intros s H; [exact H|].
    change (prun s (e :: es)) with (prun (pstep s e) es). apply IH. apply sent_step, H.
  Qed.

  (** *** The plugin that was registered first *)
  Definition pend (box : list (nat * mail)) : list plugin :=
    omap (λ x, match x.2 with MRegister p => Some p | _ => None end) box.
  Record first_inv (p : plugin) (c : center) (tr : list obs) : Prop := {
    fi_reg :
      (c_plugins c = [] ∧ c_futs c = [] ∧ ∃ k box, c_box c = (k, MRegister p) :: box ∧ p ∉ pend box) ∨
      (∃ l, c_plugins c = p :: l ∧ p ∉ l ++ pend (c_box c));
    fi_un : ∀ f, f ∈ c_futs c → f_started f = false → ∃ l, f_todo f = p :: l ∧ p ∉ l;
    fi_st : ∀ f, f ∈ c_futs c → f_started f = true → p ∉ f_todo f;
    fi_sorted : StronglySorted lt (map fst (calls_of p tr));
    fi_lt : ∀ k, k ∈ map fst (calls_of p tr) →
      (∀ f, f ∈ c_futs c → f_started f = false → (k < f_no f)%nat) ∧
      (∀ n x, (n, x) ∈ c_box c → (k < n)%nat) ∧ (k < c_next c)%nat;
    fi_h : ∀ n ty' ps, OHandle n ty' ps ∈ tr → ∃ l, ps = p :: l;
  }.

  Lemma pend_app b b' : pend (b ++ b') = pend b ++ pend b'.
  Proof. apply omap_app. Qed.
  Lemma first_silent p c tr os :
    calls_of p os = [] → (∀ n ty' ps, OHandle n ty' ps ∉ os) → first_inv p c tr → first_inv p c (tr ++ os).
  Proof.
    intros E Eh H. destruct H. split; try done; rewrite ?calls_of_app, ?E, ?app_nil_r; try done.
    intros n ty' ps. rewrite elem_of_app. intros [|Hin]; [eauto|]. by apply Eh in Hin.
  Qed.
  Lemma first_post1 p c tr x :
    (∀ q, x = MRegister q → q ≠ p) → first_inv p c tr → first_inv p (post1 c x) tr.
  Proof.
    intros Hx H. destruct H as [H1 H2 H3 H4 H5 H6]. split; try done.
    - cbn. destruct H1 as [(E1 & E2 & k & box & -> & Hn)|(l & -> & Hn)].
      + left. split; [done|]. split; [done|]. exists k, (box ++ [(c_next c, x)]). split; [done|].
        rewrite pend_app, elem_of_app. intros [|Hin]; [done|]. destruct x as [q|]; cbn in Hin.
        * apply elem_of_list_singleton in Hin. by eapply Hx.
        * by apply elem_of_nil in Hin.
      + right. exists l. split; [done|]. rewrite pend_app, app_assoc, elem_of_app. intros [|Hin]; [done|].
        destruct x as [q|]; cbn in Hin.
        * apply elem_of_list_singleton in Hin. by eapply Hx.
        * by apply elem_of_nil in Hin.
    - intros k Hk. destruct (H5 k Hk) as (A & B & C). cbn. split; [done|]. split; [|lia].
      intros n y. rewrite elem_of_app, elem_of_list_singleton. intros [|[= -> _]]; [eauto|done].
  Qed.
  Lemma first_post p ty' ms c tr :
    first_inv p c tr → first_inv p (post ty' ms c).1 (tr ++ (post ty' ms c).2).
  Proof.
    revert c tr. induction ms as [|m ms IH]; intros c tr H; cbn [post]; [by rewrite app_nil_r|].
    specialize (IH (post1 c (MMsg ty' m)) (tr ++ [OSend (c_next c) (ty', m)])). unfold post1 in IH at 2 3.
    destruct (post ty' ms _) as [c' os]. cbn [fst snd] in *.
    change (OSend (c_next c) (ty', m) :: os) with ([OSend (c_next c) (ty', m)] ++ os). rewrite app_assoc. apply IH.
    apply first_silent; [done| |by apply first_post1].
    intros n t ps. by rewrite elem_of_list_singleton.
  Qed.
  Lemma first_handle p c tr :
    cinv c tr → first_inv p c tr → first_inv p (handle c).1 (tr ++ (handle c).2).
  Proof.
    intros Hc H. destruct H as [H1 H2 H3 H4 H5 H6]. unfold handle.
    destruct (c_box c) as [|[n [q|ty' m]] box] eqn:Eb; cbn [fst snd].
    - rewrite app_nil_r. split; try done; rewrite ?Eb; done.
    - split; cbn [c_plugins c_box c_futs c_next]; try done; rewrite ?calls_of_app; cbn; rewrite ?app_nil_r; try done.
      + right. destruct H1 as [(E1 & E2 & k & box' & [= <- -> ->] & Hn)|(l & -> & Hn)].
        * rewrite E1. by exists [].
        * exists (l ++ [q]). split; [done|]. by rewrite <-app_assoc.
      + intros k Hk. destruct (H5 k Hk) as (A & B & C). split; [done|]. split; [|done].
        intros n' x Hin. apply (B n' x). by right.
      + intros n' ty' ps. rewrite elem_of_app, elem_of_list_singleton. intros [|]; [eauto|done].
    - destruct H1 as [(E1 & E2 & k & box' & [=] & Hn)|(l & El & Hn)].
      cbn in Hn. split; cbn [c_plugins c_box c_futs c_next]; try done; rewrite ?calls_of_app; cbn; rewrite ?app_nil_r; try done.
      + right. by exists l.
      + intros f. rewrite elem_of_app, elem_of_list_singleton. intros [|E]; [by eauto|]. subst f. cbn.
        intros _. exists l. split; [done|]. rewrite elem_of_app in Hn. tauto.
      + intros f. rewrite elem_of_app, elem_of_list_singleton. intros [|E]; [by eauto|]. by subst f.
      + intros k Hk. destruct (H5 k Hk) as (A & B & C). split; [|split; [|done]].
        * intros f. rewrite elem_of_app, elem_of_list_singleton. intros [|E]; [by eauto|]. subst f. cbn.
          intros _. eapply B. by left.
        * intros n' x Hin. apply (B n' x). by right.
      + intros n' t ps. rewrite elem_of_app, elem_of_list_singleton. intros [|E]; [eauto|].
        injection E as -> -> ->. eauto.
  Qed.

  Lemma next_plugin_suffix ty' ps q rest :
    next_plugin ty' ps = Some (q, rest) → ∃ skipped, ps = skipped ++ q :: rest.
  Proof.
    induction ps as [|q' ps IH]; cbn; [done|]. destruct (should_run q' ty').
    - intros [= -> ->]. by exists [].
    - intros H. destruct (IH H) as [sk ->]. by exists (q' :: sk).
  Qed.

  Lemma first_poll p c tr i ok :
    pl_types p = [] →
    cinv c tr → first_inv p c tr → first_inv p (poll c i ok).1 (tr ++ (poll c i ok).2).
  Proof.
    intros Hty Hc H. unfold poll. destruct (c_futs c !! i) as [f|] eqn:Ef; [|cbn; by rewrite app_nil_r].
    destruct (forallb f_started (take i (c_futs c))) eqn:Efst; [|cbn; by rewrite app_nil_r].
    assert (f ∈ c_futs c) as Hin by by eapply elem_of_list_lookup_2.
    destruct H as [H1 H2 H3 H4 H5 H6].
    assert (c_futs c ≠ []) as Hne by (intros E; rewrite E in Ef; done).
    destruct H1 as [(_ & ? & _)|(l & El & Hn)]; [done|].
    assert (∀ os, calls_of p os = [] → (∀ n t ps, OHandle n t ps ∉ os) →
      first_inv p (Center (c_plugins c) (c_box c) (delete i (c_futs c)) (c_next c)) (tr ++ os)) as Hdel.
    { intros os Eo Ho. apply first_silent; [done|done|].
      split; cbn [c_plugins c_box c_futs c_next]; try done.
      - right. by exists l.
      - intros g Hg. apply H2. by eapply delete_elem.
      - intros g Hg. apply H3. by eapply delete_elem.
      - intros k Hk. destruct (H5 k Hk) as (A & B & C). split; [|done]. intros g Hg. apply A. by eapply delete_elem. }
    destruct (f_started f) eqn:Est.
    - (* already past p *)
      pose proof (H3 f Hin Est) as Hp.
      destruct (next_plugin (f_type f) (f_todo f)) as [[q rest]|] eqn:En.
      + destruct (next_plugin_suffix _ _ _ _ En) as [sk Esk].
        assert (q ≠ p ∧ p ∉ rest) as [Hq Hr].
        { rewrite Esk, elem_of_app, elem_of_cons in Hp. split; [intros ->|]; tauto. }
        destruct ok; cbn [fst snd].
        * apply first_silent.
          { apply calls_nil. intros n k. rewrite elem_of_list_singleton. intros [= _ E _]. by subst. }
          { intros n t ps. by rewrite elem_of_list_singleton. }
          split; cbn [c_plugins c_box c_futs c_next]; try done.
          -- right. by exists l.
          -- intros g Hg Hs. apply H2; [|done]. apply elem_of_list_lookup in Hg as [k Hk].
             destruct (decide (k = i)) as [->|Hki].
             ++ rewrite list_lookup_insert in Hk by by eapply lookup_lt_Some. injection Hk as <-. done.
             ++ rewrite list_lookup_insert_ne in Hk by done. by eapply elem_of_list_lookup_2.
          -- intros g Hg Hs. apply elem_of_list_lookup in Hg as [k Hk].
             destruct (decide (k = i)) as [->|Hki].
             ++ rewrite list_lookup_insert in Hk by by eapply lookup_lt_Some. injection Hk as <-. done.
             ++ rewrite list_lookup_insert_ne in Hk by done. apply H3; [by eapply elem_of_list_lookup_2|done].
          -- intros k Hk. destruct (H5 k Hk) as (A & B & C). split; [|done].
             intros g Hg Hs. apply A; [|done]. apply elem_of_list_lookup in Hg as [k' Hk'].
             destruct (decide (k' = i)) as [->|Hki].
             ++ rewrite list_lookup_insert in Hk' by by eapply lookup_lt_Some. injection Hk' as <-. done.
             ++ rewrite list_lookup_insert_ne in Hk' by done. by eapply elem_of_list_lookup_2.
        * apply Hdel.
          { apply calls_nil. intros n k. rewrite !elem_of_cons, elem_of_nil. intros [[= _ E _]|[|]]; by subst. }
          { intros n t ps. rewrite !elem_of_cons, elem_of_nil. naive_solver. }
      + cbn [fst snd]. apply Hdel; [done|]. intros n t ps. by rewrite elem_of_list_singleton.
    - (* the first poll *)
      destruct (H2 f Hin Est) as (r & Er & Hr).
      assert (next_plugin (f_type f) (f_todo f) = Some (p, r)) as ->.
      { rewrite Er. cbn. unfold should_run. by rewrite Hty. }
      assert (∀ k, k ∈ map fst (calls_of p tr) → (k < f_no f)%nat) as Hlt by (intros k Hk; by apply (H5 k Hk)).
      assert (∀ os, calls_of p os = [(f_no f, f_call f)] →
        StronglySorted lt (map fst (calls_of p (tr ++ os))) ∧
        ∀ k, k ∈ map fst (calls_of p (tr ++ os)) → (k <= f_no f)%nat) as Hso.
      { intros os Eo. rewrite calls_of_app, Eo, map_app. cbn. split; [by apply sorted_snoc|].
        intros k. rewrite elem_of_app, elem_of_list_singleton. intros [Hk| ->]; [|done].
        specialize (Hlt k Hk). lia. }
      pose proof (c_sorted _ _ Hc) as Hsrt. unfold nos in Hsrt.
      assert (∀ k g, k ≠ i → c_futs c !! k = Some g → f_started g = false → (f_no f < f_no g)%nat) as Hfg.
      { intros k g Hk Eg Hs. destruct (decide (k < i)%nat).
        - exfalso. rewrite forallb_forall in Efst. specialize (Efst g). rewrite Hs in Efst.
          discriminate Efst. apply elem_of_list_In, elem_of_list_lookup. exists k. by rewrite lookup_take.
        - apply sorted_app_lt in Hsrt as [Hsrt _].
          apply (sorted_lookup_lt (map f_no (c_futs c)) i k); [done| | |lia].
          all: change (map f_no (c_futs c)) with (f_no <$> c_futs c); rewrite list_lookup_fmap; by rewrite ?Ef, ?Eg. }
      assert (∀ n x, (n, x) ∈ c_box c → (f_no f < n)%nat) as Hfb.
      { intros n x Hx. apply sorted_app_lt in Hsrt as [_ Hs]. apply Hs.
        - apply elem_of_list_fmap. by exists f.
        - apply elem_of_list_fmap. by exists (n, x). }
      assert (f_no f < c_next c)%nat as Hfn.
      { apply (c_lt _ _ Hc). unfold nos. rewrite elem_of_app. left. apply elem_of_list_fmap. by exists f. }
      destruct ok; cbn [fst snd].
      + assert (calls_of p [OCall (f_no f) p (f_call f)] = [(f_no f, f_call f)]) as Eo.
        { cbn. by rewrite decide_True. }
        destruct (Hso _ Eo) as [S1 S2]. split; cbn [c_plugins c_box c_futs c_next]; try done.
        * right. by exists l.
        * intros g Hg Hs. apply elem_of_list_lookup in Hg as [k Hk].
          destruct (decide (k = i)) as [->|Hki].
          -- rewrite list_lookup_insert in Hk by by eapply lookup_lt_Some. injection Hk as <-. done.
          -- rewrite list_lookup_insert_ne in Hk by done. apply H2; [by eapply elem_of_list_lookup_2|done].
        * intros g Hg Hs. apply elem_of_list_lookup in Hg as [k Hk].
          destruct (decide (k = i)) as [->|Hki].
          -- rewrite list_lookup_insert in Hk by by eapply lookup_lt_Some. injection Hk as <-. done.
          -- rewrite list_lookup_insert_ne in Hk by done. apply H3; [by eapply elem_of_list_lookup_2|done].
        * intros k Hk. specialize (S2 k Hk). split; [|split; [|lia]].
          -- intros g Hg Hs. apply elem_of_list_lookup in Hg as [k' Hk'].
             destruct (decide (k' = i)) as [->|Hki].
             ++ rewrite list_lookup_insert in Hk' by by eapply lookup_lt_Some. injection Hk' as <-. done.
             ++ rewrite list_lookup_insert_ne in Hk' by done. specialize (Hfg k' g Hki Hk' Hs). lia.
          -- intros n x Hx. specialize (Hfb n x Hx). lia.
        * intros n t ps. rewrite elem_of_app, elem_of_list_singleton. intros [|]; [eauto|done].
      + assert (calls_of p [OCall (f_no f) p (f_call f); OEnd (f_no f) true] = [(f_no f, f_call f)]) as Eo.
        { cbn. by rewrite decide_True. }
        destruct (Hso _ Eo) as [S1 S2]. split; cbn [c_plugins c_box c_futs c_next]; try done.
        * right. by exists l.
        * intros g Hg. apply H2. by eapply delete_elem.
        * intros g Hg. apply H3. by eapply delete_elem.
        * intros k Hk. specialize (S2 k Hk). split; [|split; [|lia]].
          -- intros g Hg Hs. destruct (delete_lookup_ne i (c_futs c) g Hg) as (k' & Hki & Hk').
             specialize (Hfg k' g Hki Hk' Hs). lia.
          -- intros n x Hx. specialize (Hfb n x Hx). lia.
        * intros n t ps. rewrite elem_of_app, !elem_of_cons, elem_of_nil. intros [|[|[|]]]; [eauto|done..].
  Qed.

  Lemma first_step p (s : psys) e :
    pl_types p = [] → one_process e → e ≠ PRegister p → pinv ty s →
    first_inv p (p_center s) (p_trace s) → first_inv p (p_center (pstep s e)) (p_trace (pstep s e)).
  Proof.
    intros Hty He Hr Hi H. destruct e as [e|q|ty' m| |i ok]; cbn [psys_step].
    - destruct (blocked s e); [done|].
      set (q' := (step (p_sys s) e).1). set (ms := drop _ _).
      assert (first_inv p (p_center s) (p_trace s ++ starts s e)) as Hs.
      { apply first_silent; [apply starts_calls| |done]. intros n t ps Hin.
        unfold starts in Hin. destruct e; try by apply elem_of_nil in Hin.
        destruct (tasks (p_sys s) !! i) as [tt|]; [|by apply elem_of_nil in Hin].
        destruct (p_waits s !! i); [|by apply elem_of_nil in Hin].
        destruct (t_phase tt); try by apply elem_of_nil in Hin.
        destruct (alive (p_sys s)); [|by apply elem_of_nil in Hin]. by apply elem_of_list_singleton in Hin. }
      pose proof (first_post p ty ms (p_center s) _ Hs) as Hp.
      destruct e; try (destruct (post ty ms (p_center s)) as [c' os]; cbn [fst snd p_center p_trace] in *;
        rewrite <-app_assoc in Hp; exact Hp); by destruct He.
    - apply (first_post1 p (p_center s) (p_trace s) (MRegister q)); [|done]. intros q' [= ->] ->. done.
    - exact (first_post p ty' [m] _ _ H).
    - pose proof (first_handle p _ _ (pi_c ty _ Hi) H) as Hh. by destruct (handle (p_center s)).
    - pose proof (first_poll p _ _ i ok Hty (pi_c ty _ Hi) H) as Hh. by destruct (poll (p_center s) i ok).
  Qed.
  Lemma first_run p es (s : psys) :
    pl_types p = [] → Forall (λ e : pevent M, one_process e ∧ e ≠ PRegister p) es → pinv ty s →
    first_inv p (p_center s) (p_trace s) → first_inv p (p_center (prun s es)) (p_trace (prun s es)).
  Proof.
    intros Hty Hes. revert s. induction Hes as [|e es [H1 H2] Hes IH]; intros s Hi H; [exact H|].
    change (prun s (e :: es)) with (prun (pstep s e) es). apply IH.
    - by apply pinv_step.
    - by apply first_step.
  Qed.
  Lemma first_after p es :
    pl_types p = [] → Forall (λ e : pevent M, one_process e ∧ e ≠ PRegister p) es →
    first_inv p (p_center (pafter (PRegister p :: es))) (p_trace (pafter (PRegister p :: es))).
  Proof.
    intros Hty Hes. change (pafter (PRegister p :: es)) with (prun (pstep psys_init (PRegister p)) es).
    apply first_run; [done|done|apply pinv_step, pinv_init|].
    split; cbn; try done.
    - left. split; [done|]. split; [done|]. exists 0%nat, []. split; [done|]. by intros ?%elem_of_nil.
    - by intros f ?%elem_of_nil.
    - by intros f ?%elem_of_nil.
    - constructor.
    - by intros k ?%elem_of_nil.
    - by intros n t ps ?%elem_of_nil.
  Qed.

  Lemma asks_fun m c : asks m c → c = call_of m.
  Proof. by destruct 1. Qed.

  (** A message that was handled with p first in the list and has ended: p was called. *)
  Lemma story_first n l t0 m p b :
    pl_types p = [] → story n l → OSend n (t0, m) ∈ l → OEnd n b ∈ l →
    (∀ t ps, OHandle n t ps ∈ l → ∃ r, ps = p :: r) → OCall n p (call_of m) ∈ l.
  Proof.
    intros Hty Hs Hm Hb Hh.
    assert (∀ t r, filter (meant_for t) (p :: r) = p :: filter (meant_for t) r) as Hf.
    { intros t r. rewrite filter_cons, decide_True; [done|]. by left. }
    assert (∀ x c ps, x ∈ calls_to n c ps → ∃ q, x = OCall n q c) as Hc.
    { intros x c ps (q & E & _)%elem_of_list_fmap. eauto. }
    destruct Hs as [|m'|m' c' ty' ps called todo Ha Hps|m' c' ty' ps Ha|m' c' ty' ps called q todo Ha Hps].
    - by apply elem_of_nil in Hm.
    - by apply elem_of_list_singleton in Hb.
    - exfalso. rewrite !elem_of_cons in Hb. destruct Hb as [|[|Hb]]; [done|done|]. by destruct (Hc _ _ _ Hb).
    - destruct (Hh ty' ps) as [r ->]. { right. left. }
      assert (m' = m) as ->.
      { rewrite !elem_of_cons, elem_of_app, elem_of_list_singleton in Hm.
        destruct Hm as [[= -> ->]|[|[Hm|]]]; try done. by destruct (Hc _ _ _ Hm). }
      apply asks_fun in Ha as ->. rewrite Hf. cbn. right. right. left.
    - destruct (Hh ty' ps) as [r ->]. { right. left. }
      assert (m' = m) as ->.
      { rewrite !elem_of_cons, elem_of_app, elem_of_list_singleton in Hm.
        destruct Hm as [[= -> ->]|[|[Hm|]]]; try done. by destruct (Hc _ _ _ Hm). }
      apply asks_fun in Ha as ->. rewrite Hf in Hps. right. right. rewrite elem_of_app. left.
      apply elem_of_list_fmap. exists p. split; [done|]. destruct called as [|x called]; cbn in *.
      + injection Hps as -> _. left.
      + injection Hps as -> _. left.
  Qed.

  (** All messages were answered: the first plugin was called once for each, in order. *)
  Lemma first_calls p es :
    pl_types p = [] → Forall (λ e : pevent M, one_process e ∧ e ≠ PRegister p) es →
    let tr := p_trace (pafter (PRegister p :: es)) in
    (∀ n tm, OSend n tm ∈ tr → ∃ b, OEnd n b ∈ tr) →
    calls_of p tr = map (λ nm, (nm.1, call_of nm.2)) (sends tr).
  Proof.
    intros Hty Hes tr Hend. pose proof (first_after p es Hty Hes) as Hf. fold tr in Hf.
    pose proof (pi_c ty _ (pinv_after prof sched name clock ty (PRegister p :: es))) as Hc. fold tr in Hc.
    destruct (sent_run (PRegister p :: es) psys_init) as [Hs _].
    { split; [constructor|]. by intros n ?%elem_of_nil. }
    change (p_trace (prun psys_init (PRegister p :: es))) with tr in Hs.
    assert (∀ n c, (n, c) ∈ calls_of p tr → ∃ m, (n, m) ∈ sends tr ∧ c = call_of m) as H1.
    { intros n c Hn%elem_calls_of. destruct (call_sent (PRegister p :: es) n p c Hn) as (t & m & Hm & Ha).
      exists m. split; [apply elem_sends; eauto|by apply asks_fun]. }
    assert (∀ n m, (n, m) ∈ sends tr → (n, call_of m) ∈ calls_of p tr) as H2.
    { intros n m [t0 Hn]%elem_sends. destruct (Hend n (t0, m) Hn) as [b Hb]. apply elem_calls_of.
      apply (elem_about n) in Hn; [|done]. apply (elem_about n) in Hb; [|done].
      apply (elem_about n); [done|]. eapply (story_first n); [done|apply Hc|done|done|].
      intros t ps Hin. apply (elem_about n) in Hin; [|done]. by eapply fi_h. }
    assert (map fst (calls_of p tr) = map fst (sends tr)) as E.
    { apply sorted_ext; [apply Hf|done|]. intros n. split.
      - intros ([n' c] & -> & Hin)%elem_of_list_fmap. destruct (H1 _ _ Hin) as (m & Hm & _).
        apply elem_of_list_fmap. by exists (n', m).
      - intros ([n' m] & -> & Hin)%elem_of_list_fmap. apply elem_of_list_fmap. exists (n', call_of m). auto. }
    pose proof (fi_sorted _ _ _ Hf) as Hcs.
    revert H1 H2 E Hs Hcs. generalize (calls_of p tr) (sends tr). clear.
    intros l l' H1 H2 E Hs Hcs.
    apply list_eq. intros i. rewrite list_lookup_fmap.
    assert (∀ x : nat * call, l !! i = Some x → ∃ y, l' !! i = Some y ∧ x = (y.1, call_of y.2)) as HA.
    { intros [n c] Hx. assert (map fst l !! i = Some n) as Hn.
      { change (map fst l) with (fst <$> l). by rewrite list_lookup_fmap, Hx. }
      assert (map fst l' !! i = Some n) as Hn' by by rewrite <-E.
      change (map fst l') with (fst <$> l') in Hn'. rewrite list_lookup_fmap in Hn'.
      destruct (l' !! i) as [[n' m]|] eqn:Hy; [|done]. injection Hn' as ->. exists (n, m). split; [done|].
      cbn. f_equal. destruct (H1 n c) as (m' & Hm' & ->). { by eapply elem_of_list_lookup_2. }
      apply elem_of_list_lookup in Hm' as [i' Hi'].
      assert (i' = i) as ->; [|congruence].
      apply (NoDup_lookup (map fst l') i' i n); [by apply sorted_nodup| |].
      - change (map fst l') with (fst <$> l'). by rewrite list_lookup_fmap, Hi'.
      - change (map fst l') with (fst <$> l'). by rewrite list_lookup_fmap, Hy. }
    destruct (l !! i) as [x|] eqn:Ex.
    - destruct (HA x eq_refl) as (y & -> & ->). done.
    - destruct (l' !! i) as [y|] eqn:Ey; [|done].
      apply lookup_ge_None in Ex. apply lookup_lt_Some in Ey.
      assert (length l = length l') as El by by rewrite <-(map_length fst l), E, map_length. lia.
  Qed.

  (** The statuses the first plugin hears of. *)
  Lemma first_reports {SO : SerdeOk M} p es id :
    pl_types p = [] →
    Forall (λ e : pevent M, one_process e ∧ one_queue e ∧ e ≠ PRegister p) es →
    let tr := p_trace (pafter (PRegister p :: es)) in
    let qs := qevents psys_init (PRegister p :: es) in
    (∀ n tm, OSend n tm ∈ tr → ∃ b, OEnd n b ∈ tr) →
    ok_hist prof sched name clock (sys_init world_empty) qs →
    (∀ e, e ∈ qs → ¬ overwrites_only e) →
    reported id (calls_of p tr) = status_path prof sched name clock id (sys_init world_empty) qs.
  Proof.
    intros Hty Hes tr qs Hend Hok Hov.
    assert (calls_of p tr = map (λ nm, (nm.1, call_of nm.2)) (sends tr)) as E.
    { apply first_calls; [done| |done]. eapply list.Forall_impl; [exact Hes|]. cbn. tauto. }
    assert (map snd (sends tr) = log (sw (p_sys (pafter (PRegister p :: es))))) as E2.
    { apply (prun_sends (PRegister p :: es) psys_init); [|done].
      constructor; [done|]. eapply list.Forall_impl; [exact Hes|]. cbn. tauto. }
    assert (p_sys (pafter (PRegister p :: es)) = sys_run prof sched name h (sys_init world_empty) qs) as E3.
    { apply (prun_queue (PRegister p :: es) psys_init). }
    assert (reported id (calls_of p tr) = notes id (map snd (sends tr))) as ->.
    { rewrite E. generalize (sends tr). clear. intros l. induction l as [|[n m] l IH]; [done|].
      cbn. destruct m as [k st|k []]; cbn; [destruct (String.eqb k id)|..]; unfold reported, notes in IH; by rewrite IH. }
    rewrite E2, E3.
    exact (notes_path prof sched name clock (sys_init world_empty) qs id (all_at_initial name) Hok Hov).
  Qed.

  (** An execution starts after its before-hooks. *)
  Lemma started_after_hooks es pre n id suf :
    p_trace (pafter es) = pre ++ OStart n id :: suf →
    ∃ ps, (∃ pre1 pre2, pre = pre1 ++ OHandle n ty ps :: pre2 ∧ ps = registered pre1) ∧
      (about n pre = OSend n (ty, RunHook id true) :: OHandle n ty ps
         :: calls_to n (CallBefore id) (filter (meant_for ty) ps) ++ [OEnd n false] ∨
       ∃ called p todo, filter (meant_for ty) ps = called ++ p :: todo ∧
         about n pre = OSend n (ty, RunHook id true) :: OHandle n ty ps
           :: calls_to n (CallBefore id) (called ++ [p]) ++ [OEnd n true]).
  Proof.
    intros E. pose proof (pinv_after prof sched name clock ty es) as Hi.
    destruct (pi_started ty _ Hi pre n id suf E) as (_ & _ & Hsuf & rest & b & Hab).
    pose proof (c_story _ _ (pi_c ty _ Hi) n) as Hst.
    rewrite E, about_app, about_cons_ne, Hsuf, app_nil_r in Hst by by intros [].
    assert (∀ t ps, OHandle n t ps ∈ about n pre →
      ∃ pre1 pre2, pre = pre1 ++ OHandle n t ps :: pre2 ∧ ps = registered pre1) as Hh.
    { intros t ps Hin. apply (elem_about n) in Hin; [|done].
      apply elem_of_list_split in Hin as (pre1 & pre2 & Epre). exists pre1, pre2. split; [done|].
      eapply (c_snap _ _ (pi_c ty _ Hi)). rewrite E, Epre, <-app_assoc. done. }
    rewrite Hab in Hst, Hh. rewrite Hab.
    remember (OSend n (ty, RunHook id true) :: rest ++ [OEnd n b]) as l eqn:El.
    destruct Hst as [|tm|m' c' ty' ps called todo Ha Hps|m' c' ty' ps Ha|m' c' ty' ps called q todo Ha Hps].
    - done.
    - injection El as _ El. by destruct rest.
    - exfalso. assert (OEnd n b ∈ OHandle n ty' ps :: calls_to n c' called) as Hin.
      { injection El as _ _ ->. rewrite elem_of_app. right. left. }
      rewrite elem_of_cons in Hin. destruct Hin as [|(q & E' & _)%elem_of_list_fmap]; done.
    - injection El as -> -> _. apply asks_fun in Ha as ->. exists ps. split; [apply Hh; right; left|]. by left.
    - injection El as -> -> _. apply asks_fun in Ha as ->. exists ps. split; [apply Hh; right; left|]. right.
      by exists called, q, todo.
  Qed.
End order.
