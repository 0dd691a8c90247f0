(** C81, C82: batches of approvals, revocations and delegated transfers; batch limits. *)
From Verif Require Import Base ModelPrincipal ModelState ModelIcrc7 ModelIcrc37 ModelManagement ModelLifecycle
  ModelQueries ModelStep ProofsItems ProofsManage ProofsMicro Spec ProofsCore ProofsOwner ProofsTime ProofsRate
  ProofsApprovals Scenario.

(** Answers and states of a batch are those of its items run one after the other. *)
Lemma run_items_at {A B} (f : state -> A -> option (state * B)) l s s' bs k a b :
  run_items f s l = Some (s', bs) -> l !! k = Some a -> bs !! k = Some b ->
  exists sk sk', run_items f s (take k l) = Some (sk, take k bs) /\ f sk a = Some (sk', b) /\
                 run_items f s (take (S k) l) = Some (sk', take (S k) bs).
Proof.
  revert s bs k. induction l as [|x l IH]; intros s bs k H Hl Hb; [rewrite lookup_nil in Hl; discriminate|].
  cbn [run_items] in H. destruct (f s x) as [[s1 c]|] eqn:F; [|discriminate].
  destruct (run_items f s1 l) as [[s2 cs]|] eqn:G; [|discriminate]. injection H as -> <-.
  destruct k as [|k]; simpl in Hl, Hb.
  - injection Hl as ->. injection Hb as ->. exists s, s1. cbn [take run_items]. rewrite F. auto.
  - destruct (IH _ _ _ G Hl Hb) as (sk & sk' & R1 & R2 & R3). exists sk, sk'.
    split; [cbn [take run_items]; rewrite F, R1; reflexivity|]. split; [exact R2|].
    change (take (S (S k)) (x :: l)) with (x :: take (S k) l). cbn [run_items]. rewrite F, R3. reflexivity.
Qed.

(** What "answered item by item" means for a batch call [call] of which the first [n] items are processed: the [k]-th
    answer is the one a call with the [k]-th item alone gets in the state the items before it left. *)
Definition item_by_item {A} (call : list A -> op) (e : env) (s : state) (l : list A) (n : nat) (bs : list (res N)) : Prop :=
  length bs = n /\
  forall k a b, l !! k = Some a -> bs !! k = Some b ->
    exists sk sk', step e (call (take k l)) s = (sk, ABatch (take k bs)) /\
                   step e (call [a]) sk = (sk', ABatch [b]) /\
                   step e (call (take (S k) l)) s = (sk', ABatch (take (S k) bs)).

Lemma plain_batch {A} (call : list A -> op) (f : env -> state -> A -> option (state * res N)) e s l s' bs :
  (forall s l, step e (call l) s = ans_batch s (run_items (f e) s l)) ->
  step e (call l) s = (s', ABatch bs) -> item_by_item call e s l (length l) bs.
Proof.
  intros Hc H. rewrite Hc in H. destruct (run_items (f e) s l) as [[s1 cs]|] eqn:R; [|discriminate].
  injection H as -> ->. split; [eapply run_items_length; eauto|]. intros k a b Hl Hb.
  destruct (run_items_at _ _ _ _ _ _ _ _ R Hl Hb) as (sk & sk' & R1 & R2 & R3). exists sk, sk'.
  rewrite !Hc, R1, R3. cbn [run_items]. rewrite R2. auto.
Qed.

(** ** C81 *)

Theorem C81_approve_tokens e s l s' bs :
  step e (OApproveTokens l) s = (s', ABatch bs) -> item_by_item OApproveTokens e s l (length l) bs.
Proof. apply (plain_batch OApproveTokens approve_token). reflexivity. Qed.
Print Assumptions C81_approve_tokens.

Theorem C81_approve_collection e s l s' bs :
  step e (OApproveCollection l) s = (s', ABatch bs) -> item_by_item OApproveCollection e s l (length l) bs.
Proof. apply (plain_batch OApproveCollection approve_collection). reflexivity. Qed.
Print Assumptions C81_approve_collection.

Theorem C81_transfer_from e s l s' bs :
  step e (OTransferFrom l) s = (s', ABatch bs) -> item_by_item OTransferFrom e s l (length l) bs.
Proof. apply (plain_batch OTransferFrom transfer_from). reflexivity. Qed.
Print Assumptions C81_transfer_from.

(** Settings are not touched by an item. *)
Lemma revoke_coll_item_cfg e s a s' r : revoke_collection_approvals e s a = Some (s', r) -> cfg s' = cfg s.
Proof.
  intros H. destruct (revoke_collection_inv _ _ _ _ _ H) as [[Q _]|(s1 & i & m & _ & Q & _ & _ & ->)].
  - apply (quiet_cfg _ _ Q).
  - simpl. apply (quiet_cfg _ _ Q).
Qed.

Lemma revoke_coll_items_cfg e l : forall s s' bs, run_items (revoke_collection_approvals e) s l = Some (s', bs) -> cfg s' = cfg s.
Proof.
  induction l as [|a l IH]; intros s s' bs H; cbn [run_items] in H; [injection H as <- <-; reflexivity|].
  destruct (revoke_collection_approvals e s a) as [[s1 b]|] eqn:F; [|discriminate].
  destruct (run_items _ s1 l) as [[s2 cs]|] eqn:G; [|discriminate]. injection H as -> <-.
  rewrite (IH _ _ _ G). eapply revoke_coll_item_cfg; eauto.
Qed.

Lemma take_n_at_most {A} n (l : list A) : nlen l <= n -> take_n n l = l.
Proof. intros H. unfold take_n. apply firstn_all2. unfold nlen in *. lia. Qed.

(** The number of revocations one call performs. *)
Definition max_revocations (s : state) : N :=
  match c_max_revoke (cfg s) with Some n => if n <? 2 ^ 32 then n else 10 | None => 10 end.

Lemma max_revocations_eq s : usize_limit (c_max_revoke (cfg s)) = max_revocations s.
Proof.
  unfold usize_limit, max_revocations, usize_try, default_max_appr. change (2 ^ 32) with two32.
  destruct (c_max_revoke (cfg s)) as [n|]; simpl; [destruct (n <? two32)|]; reflexivity.
Qed.

Lemma take_n_length {A} n (l : list A) : length (take_n n l) = Nat.min (N.to_nat n) (length l).
Proof. unfold take_n. rewrite firstn_length. unfold nlen. lia. Qed.

Lemma take_n_lookup {A} n (l : list A) k : (k < length (take_n n l))%nat -> take_n n l !! k = l !! k.
Proof.
  intros H. rewrite take_n_length in H. unfold take_n. rewrite lookup_take; [reflexivity|]. unfold nlen. lia.
Qed.

Lemma take_take_n {A} n (l : list A) k : (k <= length (take_n n l))%nat -> take k (take_n n l) = take k l.
Proof.
  intros H. rewrite take_n_length in H. unfold take_n. rewrite take_take. f_equal. unfold nlen. lia.
Qed.

Theorem C81_revoke_collection e s l s' bs :
  step e (ORevokeCollection l) s = (s', ABatch bs) ->
  item_by_item ORevokeCollection e s l (Nat.min (N.to_nat (max_revocations s)) (length l)) bs.
Proof.
  intros H. cbn [step] in H. unfold icrc37_revoke_collection_approvals, ans_batch in H.
  destruct (run_items _ _ _) as [[s1 cs]|] eqn:R; [|discriminate]. injection H as -> ->.
  pose proof (run_items_length _ _ _ _ _ R) as L. rewrite take_n_length, max_revocations_eq in L.
  split; [exact L|]. intros k a b Hl Hb.
  assert (K : (k < length (take_n (usize_limit (c_max_revoke (cfg s))) l))%nat).
  { apply lookup_lt_Some in Hb. rewrite take_n_length, max_revocations_eq. lia. }
  rewrite <- (take_n_lookup _ l k K) in Hl.
  destruct (run_items_at _ _ _ _ _ _ _ _ R Hl Hb) as (sk & sk' & R1 & R2 & R3). exists sk, sk'.
  rewrite take_take_n in R1, R3 by lia. rewrite take_n_length in K.
  cbn [step]. unfold icrc37_revoke_collection_approvals.
  rewrite (revoke_coll_items_cfg _ _ _ _ _ R1).
  rewrite !take_n_at_most by (unfold nlen; simpl; rewrite ?take_length; lia).
  rewrite R1, R3. cbn [run_items]. rewrite R2. auto.
Qed.
Print Assumptions C81_revoke_collection.

(** Token revocations do not look at the memory of the rate limiter and keep it. *)
Lemma revoke_token_windows e s a w s' b :
  revoke_token_approvals e s a = Some (s', b) ->
  revoke_token_approvals e (set_windows w s) a = Some (set_windows w s', b).
Proof.
  unfold revoke_token_approvals, add_transaction. intros H.
  change (verify_opt_timing (set_windows w s)) with (verify_opt_timing s).
  change (owner_of (set_windows w s)) with (owner_of s).
  change (tok_appr (set_windows w s)) with (tok_appr s).
  change (lcalls (set_windows w s)) with (lcalls s).
  destruct (verify_opt_timing s _ _); [|injection H as <- <-; reflexivity..].
  destruct (owner_of s _); [|injection H as <- <-; reflexivity].
  destruct (negb _); [injection H as <- <-; reflexivity|].
  destruct (tok_appr s !! _); [|injection H as <- <-; reflexivity].
  destruct (e_log e (lcalls s) _); injection H as <- <-; reflexivity.
Qed.

Lemma revoke_token_cfg e s a s' b : revoke_token_approvals e s a = Some (s', b) -> cfg s' = cfg s.
Proof.
  intros H. destruct (revoke_token_inv _ _ _ _ _ H) as [[Q _]|(s1 & i & ow & m & _ & Q & _ & _ & _ & _ & ->)].
  - apply (quiet_cfg _ _ Q).
  - simpl. apply (quiet_cfg _ _ Q).
Qed.

Lemma revoke_token_items_cfg e l : forall s s' bs, run_items (revoke_token_approvals e) s l = Some (s', bs) -> cfg s' = cfg s.
Proof.
  induction l as [|a l IH]; intros s s' bs H; cbn [run_items] in H; [injection H as <- <-; reflexivity|].
  destruct (revoke_token_approvals e s a) as [[s1 b]|] eqn:F; [|discriminate].
  destruct (run_items _ s1 l) as [[s2 cs]|] eqn:G; [|discriminate]. injection H as -> <-.
  rewrite (IH _ _ _ G). eapply revoke_token_cfg; eauto.
Qed.

Lemma guard_fresh now tid s : windows s !! tid = None ->
  guard_sliding_window now tid s = (set_windows (<[tid := [now]]> (windows s)) s, true).
Proof. intros H. unfold guard_sliding_window. rewrite H. reflexivity. Qed.

(** The rate limiter counts a batch of token revocations once, for its first token: an item behaves as it would alone with
    a limiter that has seen no call yet. *)
Theorem C81_revoke_tokens e s l s' bs :
  step e (ORevokeTokens l) s = (s', ABatch bs) ->
  length bs = Nat.min (N.to_nat (max_revocations s)) (length l) /\
  (forall k a b, l !! k = Some a -> bs !! k = Some b ->
    exists sk sk', (forall x r, l = x :: r -> k = 0%nat -> ledger_same s sk) /\
      ((0 < k)%nat -> step e (ORevokeTokens (take k l)) s = (sk, ABatch (take k bs))) /\
      step e (ORevokeTokens [a]) (set_windows ∅ sk) = (set_windows (<[rv_tid a := [e_now e]]> ∅) sk', ABatch [b]) /\
      step e (ORevokeTokens (take (S k) l)) s = (sk', ABatch (take (S k) bs))).
Proof.
  intros H. cbn [step] in H. unfold icrc37_revoke_token_approvals in H.
  destruct l as [|a0 l0] eqn:El; [discriminate|]. rewrite <- El in *.
  destruct (guard_sliding_window (e_now e) (rv_tid a0) s) as [s1 pass] eqn:G.
  pose proof (guard_quiet _ _ _ _ _ G) as Q. destruct pass; cbn [negb] in H; [|discriminate].
  destruct (run_items _ _ _) as [[s2 cs]|] eqn:R; [|discriminate]. injection H as -> ->.
  rewrite (quiet_cfg _ _ Q) in R.
  pose proof (run_items_length _ _ _ _ _ R) as L. rewrite take_n_length, max_revocations_eq in L.
  split; [exact L|]. intros k a b Hl Hb.
  assert (K : (k < length (take_n (usize_limit (c_max_revoke (cfg s))) l))%nat).
  { apply lookup_lt_Some in Hb. rewrite take_n_length, max_revocations_eq. lia. }
  rewrite <- (take_n_lookup _ l k K) in Hl.
  destruct (run_items_at _ _ _ _ _ _ _ _ R Hl Hb) as (sk & sk' & R1 & R2 & R3). exists sk, sk'.
  rewrite take_take_n in R1, R3 by lia. rewrite take_n_length in K.
  pose proof (revoke_token_items_cfg _ _ _ _ _ R1) as C1. rewrite (quiet_cfg _ _ Q) in C1.
  assert (Hd : forall j, (0 < j)%nat -> exists r, take j l = a0 :: r).
  { intros [|j] J; [lia|]. rewrite El. eexists. reflexivity. }
  splits.
  - intros _ _ _ ->. simpl in R1. injection R1 as <-. apply quiet_ledger_same. exact Q.
  - intros Hk. cbn [step]. unfold icrc37_revoke_token_approvals. destruct (Hd k Hk) as (r & E). rewrite E, G. cbn [negb].
    rewrite (quiet_cfg _ _ Q). rewrite <- E, take_n_at_most by (unfold nlen; rewrite take_length; lia).
    rewrite R1. reflexivity.
  - cbn [step]. unfold icrc37_revoke_token_approvals. rewrite guard_fresh by reflexivity. cbn [negb].
    change (set_windows (<[rv_tid a := [e_now e]]> (windows (set_windows ∅ sk))) (set_windows ∅ sk))
      with (set_windows (<[rv_tid a := [e_now e]]> ∅) sk).
    change (cfg (set_windows _ sk)) with (cfg sk). rewrite C1.
    rewrite take_n_at_most by (unfold nlen; simpl; lia). cbn [run_items].
    rewrite (revoke_token_windows e sk a _ _ _ R2). reflexivity.
  - cbn [step]. unfold icrc37_revoke_token_approvals. destruct (Hd (S k) ltac:(lia)) as (r & E). rewrite E, G. cbn [negb].
    rewrite (quiet_cfg _ _ Q). rewrite <- E, take_n_at_most by (unfold nlen; rewrite take_length; lia).
    rewrite R3. reflexivity.
Qed.
Print Assumptions C81_revoke_tokens.

(** Four approvals by alice: her two tokens, bob's token and a token that does not exist; then three revocations. *)
Example C81_example :
  step (from_ alice 3000000000) (OApproveTokens [appr 1 carol 3000000000 None; appr 3 carol 3000000000 None;
      appr 2 carol 3000000000 None; appr 7 carol 3000000000 None]) demo2 =
    (fst (step (from_ alice 3000000000) (OApproveTokens [appr 1 carol 3000000000 None; appr 3 carol 3000000000 None;
      appr 2 carol 3000000000 None; appr 7 carol 3000000000 None]) demo2),
     ABatch [Ok 5; Err EUnauthorized; Ok 6; Err ENonExistingTokenId]) /\
  snd (step (from_ alice 4000000000) (ORevokeTokens [mkRevokeArg None None 1 None None; mkRevokeArg None None 3 None None;
      mkRevokeArg None None 2 None None]) demo2) = ABatch [Ok 5; Err EUnauthorized; Err EApprovalDoesNotExist] /\
  snd (step (from_ alice 4000000000) (ORevokeCollection [mkRevokeCollArg (Some (acct carol)) None None None;
      mkRevokeCollArg None None None None]) demo2) = ABatch [Ok 5; Ok 6] /\
  snd (step (from_ carol 4000000000) (OTransferFrom [tfrom alice bob 1; tfrom alice bob 2]) demo2)
    = ABatch [Ok 5; Err EUnauthorized].
Proof. splits; [apply snd_pair|..]; vm_compute; reflexivity. Qed.

(** ** C82 *)

(** What holds: transfers and mints obey the batch limit, revocations obey theirs.  Missing: approvals and
    delegated transfers. *)
Theorem C82_limits_partial e s s' :
  (forall l bs, step e (OTransfer l) s = (s', ABatch bs) ->
     N.of_nat (length bs) <= N.max 1 (default 100 (c_max_update (cfg s))) /\
     (default 100 (c_max_update (cfg s)) = 0 -> tokens s' = tokens s)) /\
  (forall l k, step e (OMint l) s = (s', ANat k) -> nlen l <= default 100 (c_max_update (cfg s))) /\
  (forall l bs, step e (ORevokeTokens l) s = (s', ABatch bs) -> N.of_nat (length bs) <= max_revocations s) /\
  (forall l bs, step e (ORevokeCollection l) s = (s', ABatch bs) -> N.of_nat (length bs) <= max_revocations s).
Proof. change 100 with default_max_update.
  splits.
  - intros l bs H. simpl in H. unfold icrc7_transfer in H. destruct l as [|a l]; [injection H as <- <-; simpl; split; [lia|auto]|].
    destruct (usize_try _) as [mx|] eqn:U; [|discriminate].
    assert (mx = default default_max_update (c_max_update (cfg s))) as ->.
    { unfold usize_try in U. destruct (_ <? _) in U; [congruence|discriminate]. }
    destruct (_ && _); [injection H as <- <-; simpl; split; [lia|auto]|].
    destruct (bool_decide _); [injection H as <- <-; simpl; split; [lia|auto]|].
    destruct (run_items _ _ _) as [[s1 cs]|] eqn:R; [|discriminate]. injection H as -> ->.
    pose proof (run_items_length _ _ _ _ _ R) as L. rewrite take_n_length in L. split; [lia|].
    intros Z. rewrite Z in R. simpl in R. injection R as <- <-. reflexivity.
  - intros l k H. destruct (step_mint _ _ _ _ _ H) as (_ & _ & _ & _ & X & _). exact X.
  - intros l bs H. destruct (C81_revoke_tokens _ _ _ _ _ H) as [L _]. lia.
  - intros l bs H. destruct (C81_revoke_collection _ _ _ _ _ H) as [L _]. lia.
Qed.
Print Assumptions C82_limits_partial.

(** An installation that allows one item per update batch and three approvals per token. *)
Definition tiny_args : init_args :=
  mkInit false {[admin := all_permissions]} None "SYM" "Name" None (Some 100) None (Some 1) None None (Some 10) None
         None None None [] None None.
(** Tokens 1 and 2 minted to alice under that installation. *)
Definition tiny : state :=
  run [(from_ admin 0, OMint [mkMint (acct alice) None []]); (from_ admin 1, OMint [mkMint (acct alice) None []])]
      (demo_init tiny_args).

Lemma tiny_reachable : reachable tiny.
Proof. eexists admin, (fun _ => true), tiny_args, _, _. split; reflexivity. Qed.

(** Refuted: with a limit of one item per batch, two approvals and two delegated transfers go through in one call. *)
Theorem C82_approve_transfer_from_refuted :
  exists s e, reachable s /\ c_max_update (cfg s) = Some 1 /\
    snd (step e (OApproveTokens [appr 1 bob 2 None; appr 2 bob 2 None]) s) = ABatch [Ok 2; Ok 3] /\
    snd (step e (OApproveCollection [info bob 2 None; info carol 2 None]) s) = ABatch [Ok 2; Ok 3] /\
    snd (step e (OTransferFrom [tfrom alice bob 1; tfrom alice bob 2]) s) = ABatch [Ok 2; Ok 3] /\
    snd (step e (OTransfer [xfer bob 1; xfer bob 2]) s) = ABatch [Ok 2].
Proof. exists tiny, (from_ alice 2). split; [apply tiny_reachable|]. splits; vm_compute; reflexivity. Qed.
Print Assumptions C82_approve_transfer_from_refuted.

Example C82_example :
  reachable tiny /\
  step (from_ alice 2) (OTransfer [xfer bob 1; xfer bob 2]) tiny =
    (fst (step (from_ alice 2) (OTransfer [xfer bob 1; xfer bob 2]) tiny), ABatch [Ok 2]) /\
  snd (step (from_ admin 2) (OMint [mkMint (acct alice) None []; mkMint (acct alice) None []]) tiny)
    = AErr EExceedMaxAllowedSupplyCap /\
  snd (step (from_ admin 2) (OMint [mkMint (acct alice) None []]) tiny) = ANat 3.
Proof. split; [apply tiny_reachable|]. splits; [apply snd_pair|..]; vm_compute; reflexivity. Qed.
