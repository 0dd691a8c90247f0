(** Creation time windows, with wrap-around of 64-bit addition. *)
From Verif Require Import Base ModelPrincipal ModelState ModelIcrc7 ModelIcrc37 ModelManagement ModelLifecycle
  ModelQueries ModelStep ProofsItems ProofsManage ProofsMicro Spec ProofsCore ProofsOwner.

Lemma add64_le a b : add64 a b <= a + b.
Proof. unfold add64. apply N.mod_le. discriminate. Qed.

Lemma add64_exact a b : a + b < two64 -> add64 a b = a + b.
Proof. unfold add64. apply N.mod_small. Qed.

Lemma transfer_window e a s s' i :
  step e (OTransfer [a]) s = (s', ABatch [Ok i]) ->
  let drift := default default_drift (c_drift (cfg s)) in
  let win := default default_tx_window (c_tx_window (cfg s)) in
  let created := default (e_now e) (ta_created a) in
  created <= e_now e + drift /\ e_now e <= created + win + drift.
Proof.
  intros H. destruct (transfer_ok_checked _ _ _ _ _ H) as (_ & nft & _ & _ & _ & _ & _ & drift & win & D & W & U & L).
  assert (Ed : default default_drift (c_drift (cfg s)) = drift).
  { unfold u64_setting, u64_try in D. destruct (c_drift (cfg s)); simpl; [destruct (_ <? _) in D|]; congruence. }
  assert (Ew : default default_tx_window (c_tx_window (cfg s)) = win).
  { unfold u64_setting, u64_try in W. destruct (c_tx_window (cfg s)); simpl; [destruct (_ <? _) in W|]; congruence. }
  rewrite Ed, Ew. simpl. unfold sat_sub in L.
  pose proof (add64_le (e_now e) drift). pose proof (add64_le win drift). lia.
Qed.

Lemma transfer_window_complete e a s s' er :
  step e (OTransfer [a]) s = (s', ABatch [Err er]) ->
  let drift := default default_drift (c_drift (cfg s)) in
  let win := default default_tx_window (c_tx_window (cfg s)) in
  let created := default (e_now e) (ta_created a) in
  e_now e + drift < two64 -> win + drift < two64 ->
  created <= e_now e + drift -> e_now e <= created + win + drift ->
  er <> ETooOld /\ forall t, er <> ECreatedInFuture t.
Proof.
  intros H drift win created F1 F2 C1 C2.
  simpl in H. unfold icrc7_transfer in H. destruct (usize_try _) as [mx|] eqn:U; [|discriminate].
  destruct (_ && _) eqn:At; [injection H as <- <-; split; [discriminate|intros; discriminate]|].
  destruct (bool_decide (e_caller e = anonymous)) eqn:An;
    [injection H as <- <-; split; [discriminate|intros; discriminate]|].
  unfold take_n in H. change (nlen [a]) with 1 in H.
  destruct (N.to_nat (N.min mx 1)) as [|k]; [cbn in H; discriminate|].
  cbn [firstn] in H. rewrite firstn_nil in H. cbn [run_items] in H.
  destruct (transfer_nft e s a) as [[s1 b]|] eqn:T; cbn in H; [|discriminate].
  injection H as <- ->. unfold transfer_nft in T.
  destruct (guard_sliding_window _ _ _) as [s2 pass] eqn:G.
  pose proof (guard_quiet _ _ _ _ _ G) as Q.
  assert (Hd : u64_setting (c_drift (cfg s2)) default_drift = Some drift).
  { rewrite (quiet_cfg _ _ Q). unfold drift, u64_setting, u64_try in *. destruct (c_drift (cfg s)) as [d|]; simpl in *; [|reflexivity].
    destruct (d <? two64) eqn:X; [reflexivity|]. apply N.ltb_ge in X. lia. }
  assert (Hw : u64_setting (c_tx_window (cfg s2)) default_tx_window = Some win).
  { rewrite (quiet_cfg _ _ Q). unfold win, u64_setting, u64_try in *. destruct (c_tx_window (cfg s)) as [d|]; simpl in *; [|reflexivity].
    destruct (d <? two64) eqn:X; [reflexivity|]. apply N.ltb_ge in X. lia. }
  rewrite Hd, Hw in T.
  assert (X1 : (add64 (e_now e) drift <? default (e_now e) (ta_created a)) = false).
  { apply N.ltb_ge. rewrite add64_exact by exact F1. exact C1. }
  assert (X2 : (default (e_now e) (ta_created a) <? sat_sub (e_now e) (add64 win drift)) = false).
  { apply N.ltb_ge. rewrite add64_exact by exact F2. unfold sat_sub. fold created. lia. }
  rewrite X1, X2 in T.
  destruct pass; cbn [negb] in T; [|injection T as <- <-; split; [discriminate|intros; discriminate]].
  destruct (tokens s2 !! ta_tid a); [|injection T as <- <-; split; [discriminate|intros; discriminate]].
  destruct (check_memo _ _) as [[|]|]; [|injection T as <- <-; split; [discriminate|intros; discriminate]|discriminate].
  destruct (_ || _); [injection T as <- <-; split; [discriminate|intros; discriminate]|].
  destruct (add_transaction _ _ _) as [s3 ans].
  destruct ans; try discriminate; injection T as <- <-; (split; [discriminate|intros; discriminate]).
Qed.

(** Approvals: [verify_approval_timing]. *)
Lemma approval_timing_ok s created now :
  verify_approval_timing s created now = TimeOk ->
  created <= now + default default_drift (c_drift (cfg s)) /\
  now <= created + default default_tx_window (c_tx_window (cfg s)).
Proof.
  unfold verify_approval_timing.
  destruct (_ <? created) eqn:F; [discriminate|]. destruct (_ <? now) eqn:O; [discriminate|]. intros _.
  apply N.ltb_ge in F, O.
  split.
  - etransitivity; [exact F|]. etransitivity; [apply add64_le|]. apply N.add_le_mono_l.
    unfold u64_try. destruct (_ <? two64) eqn:X; simpl; [lia|]. apply N.ltb_ge in X.
    unfold default_drift at 1. unfold two64 in X. lia.
  - etransitivity; [exact O|]. etransitivity; [apply add64_le|]. apply N.add_le_mono_l.
    unfold u64_try. destruct (_ <? two64) eqn:X; simpl; lia.
Qed.

(** The other direction, without overflow. *)
Lemma approval_timing_complete s created now :
  let drift := default default_drift (c_drift (cfg s)) in
  let win := default default_tx_window (c_tx_window (cfg s)) in
  now + drift < two64 -> created + win < two64 ->
  created <= now + drift -> now <= created + win ->
  verify_approval_timing s created now = TimeOk.
Proof.
  intros drift win F1 F2 C1 C2. unfold verify_approval_timing, u64_try. fold drift win.
  assert ((drift <? two64) = true) as -> by (apply N.ltb_lt; lia). simpl.
  assert ((win <? two64) = true) as -> by (apply N.ltb_lt; lia). simpl.
  rewrite !add64_exact by assumption.
  assert ((now + drift <? created) = false) as -> by (apply N.ltb_ge; lia).
  assert ((created + win <? now) = false) as -> by (apply N.ltb_ge; lia). reflexivity.
Qed.

Lemma approve_window e a s s' i :
  step e (OApproveTokens [a]) s = (s', ABatch [Ok i]) -> verify_approval_timing s (ai_created (ap_info a)) (e_now e) = TimeOk.
Proof.
  simpl. unfold icrc37_approve_tokens. cbn [run_items].
  destruct (approve_token e s a) as [[s1 b]|] eqn:F; simpl; [|discriminate]. intros [= <- ->].
  destruct (approve_token_inv _ _ _ _ _ F) as [[_ [er X]]|(s2 & j & ow & _ & Q & _ & _ & _ & T & _)]; [discriminate|].
  exact T.
Qed.

Lemma approve_coll_window e a s s' i :
  step e (OApproveCollection [a]) s = (s', ABatch [Ok i]) -> verify_approval_timing s (ai_created a) (e_now e) = TimeOk.
Proof.
  simpl. unfold icrc37_approve_collection. cbn [run_items].
  destruct (approve_collection e s a) as [[s1 b]|] eqn:F; simpl; [|discriminate]. intros [= <- ->].
  destruct (approve_collection_inv _ _ _ _ _ F) as [[_ [er X]]|(s2 & j & _ & Q & _ & _ & T & _)]; [discriminate|].
  exact T.
Qed.

Lemma revoke_window e a s s' i c :
  step e (ORevokeTokens [a]) s = (s', ABatch [Ok i]) -> rv_created a = Some c ->
  verify_approval_timing s c (e_now e) = TimeOk.
Proof.
  intros H Hc. apply step_revoke_single in H. destruct H as (s1 & Q & F).
  destruct (revoke_token_inv _ _ _ _ _ F) as [[_ [er X]]|(s2 & j & ow & m & _ & Q2 & _ & _ & _ & T & _)]; [discriminate|].
  unfold verify_opt_timing in T. rewrite Hc in T. unfold verify_approval_timing in *.
  rewrite (quiet_cfg _ _ Q) in T. exact T.
Qed.

Lemma revoke_coll_window e a s s' i c :
  step e (ORevokeCollection [a]) s = (s', ABatch [Ok i]) -> rc_created a = Some c ->
  verify_approval_timing s c (e_now e) = TimeOk.
Proof.
  intros H Hc. apply step_revoke_coll_single in H.
  destruct (revoke_collection_inv _ _ _ _ _ H) as [[_ [er X]]|(s2 & j & m & _ & Q2 & _ & T & _)]; [discriminate|].
  unfold verify_opt_timing in T. rewrite Hc in T. exact T.
Qed.

Lemma transfer_from_window e a s s' i c :
  step e (OTransferFrom [a]) s = (s', ABatch [Ok i]) -> tf_created a = Some c ->
  verify_approval_timing s c (e_now e) = TimeOk.
Proof.
  intros H Hc. apply step_transfer_from_single in H.
  destruct (transfer_from_inv _ _ _ _ _ H) as
      [[_ [er X]]|[(nft & s4 & er & X & _)|(nft & s4 & j & _ & Q & T & V & _)]]; try discriminate.
  unfold verify_opt_timing in V. rewrite Hc in V. exact V.
Qed.
