(** C144: the rate limiter says when the next call is possible. *)
From stdpp Require Import pretty.
From Verif Require Import Base ModelPrincipal ModelState ModelIcrc7 ModelIcrc37 ModelManagement ModelLifecycle
  ModelQueries ModelStep ProofsItems ProofsManage ProofsMicro Spec ProofsCore ProofsOwner ProofsTime ProofsRate ProofsLock Scenario
  PropertiesLive.

(** ** Statement *)

(** A call about token [tid] and nothing else; calls about a collection count as calls about token 0. *)
Definition about (tid : N) (o : op) : Prop :=
  match o with
  | OTransfer [a] => ta_tid a = tid
  | OApproveTokens [a] => ap_tid a = tid
  | OApproveCollection [_] => tid = 0
  | ORevokeTokens [a] => rv_tid a = tid
  | ORevokeCollection [_] => tid = 0
  | OTransferFrom [a] => tf_tid a = tid
  | _ => False
  end.

(** The words of the refusal. *)
Definition wait_text (n : N) : string :=
  ("Rate limit exceeded. You can make another call in " ++ pretty n ++ " milliseconds")%string.

(** The caller is refused with these words: the item, or the whole call. *)
Definition told (n : N) (a : answer) : Prop :=
  a = ABatch [Err (EGeneric 0 (wait_text n))] \/ a = AErr (EGeneric 0 (wait_text n)).

(** The call succeeded. *)
Definition succeeded (a : answer) : Prop := exists i, a = ABatch [Ok i].

(** The number read as a number of units of [unit] nanoseconds: the next call about the token, whoever makes it, is not
    refused by the limiter once the time is over, and cannot succeed before. *)
Definition C144_statement (unit : N) : Prop :=
  forall h s0 e o tid n,
    now_at h (e_now e) s0 -> about tid o -> told n (snd (step e o (run h s0))) ->
    forall e2 o2, e_now e <= e_now e2 -> about tid o2 ->
      let a := snd (step e2 o2 (fst (step e o (run h s0)))) in
      (e_now e + n * unit <= e_now e2 -> forall m, ~ told m a) /\
      (e_now e2 < e_now e + n * unit -> ~ succeeded a).

(** ** Proofs *)

Lemma append_length (x y : string) : String.length (x +:+ y) = (String.length x + String.length y)%nat.
Proof. induction x as [|c x IH]; [reflexivity|].
  change (S (String.length (x +:+ y)) = S (String.length x + String.length y)). rewrite IH. reflexivity.
Qed.

Lemma append_r_inj (a b t : string) : a +:+ t = b +:+ t -> a = b.
Proof.
  revert b. induction a as [|c a IH]; intros [|d b] H; [reflexivity| | |].
  - apply (f_equal String.length) in H. rewrite !append_length in H. simpl in H. lia.
  - apply (f_equal String.length) in H. rewrite !append_length in H. simpl in H. lia.
  - change (String c (a +:+ t) = String d (b +:+ t)) in H. injection H as -> H. f_equal. apply IH. exact H.
Qed.

Lemma wait_limited n : limited (Err (EGeneric 0 (wait_text n))) = true.
Proof. reflexivity. Qed.

(** What the answer to a call about [tid] tells about the limiter. *)
Lemma told_attempt e o s tid n s' : about tid o -> step e o s = (s', ABatch [Err (EGeneric 0 (wait_text n))]) \/
    step e o s = (s', AErr (EGeneric 0 (wait_text n))) ->
  guard_w (e_now e) tid (windows s) = (windows s', false).
Proof.
  intros Ab H.
  assert (W : exists a, win_run (e_now e) (windows s) (attempts (mkEv s e o a s')) (windows s') /\
                        attempts (mkEv s e o a s') = [(tid, false)]).
  { destruct H as [H|H]; eexists; (split; [apply step_win; exact H|]);
      destruct o; try contradiction; repeat match goal with l : list _ |- _ => destruct l; try contradiction end;
      cbn [about] in Ab; subst tid; try reflexivity;
      exfalso; clear -H; cbn [step] in H;
      repeat match goal with _ : context [ans_batch _ ?x] |- _ => destruct x as [[? ?]|]; cbn [ans_batch] in H; try discriminate H end.
    revert H. unfold icrc37_revoke_token_approvals. destruct (guard_sliding_window _ _ _) as [s1 p]. destruct p; cbn [negb]; [|discriminate].
    unfold take_n. destruct (N.to_nat _) as [|k]; cbn [firstn run_items]; [discriminate|]. rewrite firstn_nil. cbn [run_items].
    destruct (revoke_token_approvals e s1 _) as [[s2 rr]|] eqn:R; [|discriminate]. intros [= -> ->].
    unfold revoke_token_approvals in R. item_tail; discriminate. }
  destruct W as (a & W & E). rewrite E in W. inversion W as [|? ? ? ? ? Hb Hr]; subst. inversion Hr; subst.
  destruct (guard_w _ _ _) as [w b]. cbn [fst snd] in *. subst. reflexivity.
Qed.

Lemma success_attempt e o s tid : about tid o -> succeeded (snd (step e o s)) ->
  snd (guard_w (e_now e) tid (windows s)) = true.
Proof.
  intros Ab [i H]. destruct (step e o s) as [s' a] eqn:St. cbn [snd] in H. subst a.
  assert (W : win_run (e_now e) (windows s) [(tid, true)] (windows s')).
  { apply step_win in St.
    destruct o; try contradiction; repeat match goal with l : list _ |- _ => destruct l; try contradiction end;
      cbn [about] in Ab; subst tid; exact St. }
  inversion W; subst. assumption.
Qed.

(** The words, once the limiter refuses. *)
Lemma told_number e o s tid n w : about tid o -> told n (snd (step e o s)) -> guard_w (e_now e) tid (windows s) = (w, false) ->
  n = sub64 60000000 (sub64 (e_now e) (default 0 (head (default [] (w !! tid))))).
Proof.
  intros Ab T G.
  assert (M : pretty (sub64 60000000 (sub64 (e_now e) (default 0 (head (default [] (w !! tid)))))) +:+ " milliseconds"
              = pretty n +:+ " milliseconds" ->
              n = sub64 60000000 (sub64 (e_now e) (default 0 (head (default [] (w !! tid)))))).
  { intros H. apply append_r_inj in H. apply (inj pretty) in H. symmetry. exact H. }
  destruct o; try contradiction; repeat match goal with l : list _ |- _ => destruct l; try contradiction end;
    cbn [about] in Ab; subst tid; cbn [step] in T.
  - unfold icrc7_transfer in T. destruct (usize_try _); [|destruct T; discriminate].
    destruct (_ && _); [destruct T as [T|T]; discriminate|]. destruct (bool_decide _); [destruct T as [T|T]; discriminate|].
    unfold take_n in T. destruct (N.to_nat _) as [|k]; cbn [firstn run_items] in T; [destruct T; discriminate|].
    rewrite firstn_nil in T. cbn [run_items] in T. unfold transfer_nft in T. rewrite guard_w_eq, G in T. cbn in T.
    destruct T as [T|T]; [|discriminate]. injection T as T. apply M. exact T.
  - cbn in T. unfold approve_token in T. rewrite guard_w_eq, G in T. cbn in T.
    destruct T as [T|T]; [|discriminate]. injection T as T. apply M. exact T.
  - cbn in T. unfold approve_collection in T. rewrite guard_w_eq, G in T. cbn in T.
    destruct T as [T|T]; [|discriminate]. injection T as T. apply M. exact T.
  - unfold icrc37_revoke_token_approvals in T. rewrite guard_w_eq, G in T. cbn in T.
    destruct T as [T|T]; [discriminate|]. injection T as T. apply M. exact T.
  - unfold icrc37_revoke_collection_approvals, take_n in T. destruct (N.to_nat _) as [|k]; cbn [firstn run_items ans_batch] in T; [destruct T; discriminate|].
    rewrite firstn_nil in T. cbn [run_items] in T. unfold revoke_collection_approvals in T. rewrite guard_w_eq, G in T. cbn in T.
    destruct T as [T|T]; [|discriminate]. injection T as T. apply M. exact T.
  - cbn in T. unfold transfer_from in T. rewrite guard_w_eq, G in T. cbn in T.
    destruct T as [T|T]; [|discriminate]. injection T as T. apply M. exact T.
Qed.

(** The memory the limiter leaves when it refuses: exactly five times, in order, all in the window. *)
Lemma refused_memory h s0 now tid w : now_at h now s0 -> guard_w now tid (windows (run h s0)) = (w, false) ->
  exists t1 l, w !! tid = Some (t1 :: l) /\ length l = 4%nat /\ t1 <= now < t1 + 60000000 /\ forall t, t ∈ l -> t1 <= t <= now.
Proof.
  intros ((caller & url_ok & a & Hi) & Ht & Hn) G.
  assert (I : win_inv tid (passes tid ([] ++ all_attempts (trace h s0))) now (windows (run h s0))).
  { apply (trace_win_inv tid now h s0 [] 0); auto; try lia.
    - intros e o H. rewrite Forall_forall in Hn. split; [lia|]. apply (Hn (e, o) H).
    - destruct (init_last_id _ _ _ _ Hi) as (_ & _ & _ & _ & _ & _ & W & _). unfold passes; simpl.
      split; [constructor|]. split; [intros t X; apply elem_of_nil in X; contradiction|]. split.
      + exists []. rewrite W, lookup_empty. simpl. split; [reflexivity|]. intros t X; apply elem_of_nil in X; contradiction.
      + intros k p q H. rewrite lookup_nil in H. discriminate.
    - intros l1 l2 x H. destruct l1; discriminate. }
  simpl in I. destruct (win_inv_attempt tid _ now tid _ I) as [I' _]. rewrite G in I'. cbn [fst snd] in I'.
  destruct (decide (tid = tid /\ false = true)) as [[_ X]|_]; [discriminate|]. rewrite app_nil_r in I'.
  destruct I' as (S & B & (old & E & _) & K). unfold guard_w in G.
  set (kept := filter _ _) in G. destruct (window_calls <=? nlen kept) eqn:C; [|discriminate]. injection G as <-.
  rewrite lookup_insert in E |- *. cbn [default] in E. apply N.leb_le in C. unfold nlen, window_calls in C.
  assert (R : forall t, t ∈ kept -> now < t + 60000000).
  { intros t X. apply elem_of_list_filter in X. destruct X as [X _]. unfold sat_sub in X. change window_ns with 60000000 in X. lia. }
  destruct kept as [|t1 l] eqn:Ek; [simpl in C; lia|]. exists t1, l. split; [reflexivity|].
  assert (Sk : StronglySorted N.le (t1 :: l)) by (rewrite E in S; eapply StronglySorted_app_r; exact S).
  assert (Bk : forall t, t ∈ t1 :: l -> t <= now) by (intros t X; apply B; rewrite E, elem_of_app; right; exact X).
  split.
  { destruct (decide (length l <= 4)%nat) as [D|D]; [simpl in C; lia|]. exfalso.
    destruct (lookup_lt_is_Some_2 l 4 ltac:(lia)) as [q Hq].
    specialize (K (length old) t1 q). rewrite E in K.
    rewrite lookup_app_r, Nat.sub_diag in K by lia. rewrite lookup_app_r in K by lia.
    replace (length old + 5 - length old)%nat with 5%nat in K by lia. specialize (K eq_refl Hq).
    change window_ns with 60000000 in K.
    assert (q <= now) by (apply Bk; right; eapply elem_of_list_lookup_2; exact Hq).
    assert (now < t1 + 60000000) by (apply R; left). lia. }
  split; [split; [apply Bk|apply R]; left|]. intros t X. split; [|apply Bk; right; exact X].
  inversion Sk as [|? ? _ F]; subst. rewrite Forall_forall in F. apply F. exact X.
Qed.

(** The wait is exact, in nanoseconds.  Missing: the words say milliseconds. *)
Theorem C144_wait_partial : C144_statement 1.
Proof.
  intros h s0 e o tid n Hn Ab T e2 o2 Le Ab2. cbv zeta. rewrite N.mul_1_r.
  destruct (step e o (run h s0)) as [s' a] eqn:St. cbn [fst].
  assert (G : guard_w (e_now e) tid (windows (run h s0)) = (windows s', false)).
  { eapply told_attempt; [exact Ab|]. destruct T as [T|T]; cbn [snd] in T; rewrite St, T; eauto. }
  assert (En : n = sub64 60000000 (sub64 (e_now e) (default 0 (head (default [] (windows s' !! tid)))))).
  { eapply told_number; [exact Ab| |exact G]. rewrite St. exact T. }
  destruct (refused_memory _ _ _ _ _ Hn G) as (t1 & l & W & Len & [B1 B2] & Bl). rewrite W in En.
  change (default 0 (head (default [] (Some (t1 :: l))))) with t1 in En.
  assert (N1 : e_now e + n = t1 + 60000000).
  { unfold sub64 in En.
    replace (e_now e + two64 - t1) with (e_now e - t1 + 1 * two64) in En by (unfold two64; lia).
    rewrite N.mod_add, (N.mod_small (e_now e - t1)) in En by (unfold two64; lia).
    replace (60000000 + two64 - (e_now e - t1)) with (60000000 - (e_now e - t1) + 1 * two64) in En by (unfold two64; lia).
    rewrite N.mod_add, N.mod_small in En by (unfold two64; lia). lia. }
  split.
  - intros Hw m Tm. destruct (step e2 o2 s') as [s2 a2] eqn:St2. cbn [snd] in Tm.
    assert (G2 : guard_w (e_now e2) tid (windows s') = (windows s2, false)).
    { eapply told_attempt; [exact Ab2|]. destruct Tm as [Tm|Tm]; rewrite St2, Tm; eauto. }
    unfold guard_w in G2. rewrite W in G2.
    change (default [] (Some (t1 :: l))) with (t1 :: l) in G2. rewrite filter_cons_False in G2.
    2: { unfold sat_sub. change window_ns with 60000000. lia. }
    destruct (window_calls <=? _) eqn:C; [|discriminate]. apply N.leb_le in C. unfold nlen, window_calls in C.
    pose proof (filter_length (fun t => sat_sub (e_now e2) t < window_ns) l). lia.
  - intros Hw Sc. apply (success_attempt _ _ _ _ Ab2) in Sc. unfold guard_w in Sc. rewrite W in Sc.
    change (default [] (Some (t1 :: l))) with (t1 :: l) in Sc.
    rewrite filter_all in Sc.
    2: { intros t X. unfold sat_sub. change window_ns with 60000000. apply elem_of_cons in X. destruct X as [->|X]; [lia|].
         specialize (Bl t X). lia. }
    unfold nlen in Sc. simpl length in Sc. rewrite Len in Sc. discriminate.
Qed.
Print Assumptions C144_wait_partial.

(** Five calls of bob, and alice is told to wait for 59999990 milliseconds, more than sixteen hours; 60 ms after bob's call
    her transfer goes through. *)
Definition busy_h : history := demo1_h ++ [(from_ bob 10, OTransfer (repeat (xfer bob 1) 5))].

Example C144_example :
  now_at busy_h (e_now (from_ alice 20)) demo0 /\ about 1 (OTransfer [xfer carol 1]) /\
  told 59999990 (snd (step (from_ alice 20) (OTransfer [xfer carol 1]) (run busy_h demo0))) /\
  let s := fst (step (from_ alice 20) (OTransfer [xfer carol 1]) (run busy_h demo0)) in
  told 1 (snd (step (from_ alice 60000009) (OTransfer [xfer carol 1]) s)) /\
  snd (step (from_ alice 60000010) (OTransfer [xfer carol 1]) s) = ABatch [Ok 3].
Proof.
  split.
  { split; [exists admin, (fun _ => true), demo_args; apply demo0_init|]. split.
    - unfold times_ok. vm_compute map. repeat constructor; vm_compute; discriminate.
    - unfold busy_h, demo1_h. repeat constructor; simpl; lia. }
  split; [reflexivity|]. split; [left; vm_compute; reflexivity|]. split; [left; vm_compute; reflexivity|vm_compute; reflexivity].
Qed.

(** Refuted for the unit the words name: a call succeeds a million times earlier than told. *)
Theorem C144_wait_refuted : ~ C144_statement 1000000.
Proof.
  intros H. destruct C144_example as (Hn & Ab & T & _ & Sc).
  destruct (H busy_h demo0 _ _ 1 _ Hn Ab T (from_ alice 60000010) (OTransfer [xfer carol 1]) ltac:(vm_compute; discriminate) eq_refl)
    as [_ X].
  apply X; [vm_compute; reflexivity|]. eexists. exact Sc.
Qed.
Print Assumptions C144_wait_refuted.
