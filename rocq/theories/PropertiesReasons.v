(** C92: a refusal tells the true reason. *)
From stdpp Require Import pretty.
From Verif Require Import Base ModelPrincipal ModelState ModelIcrc7 ModelIcrc37 ModelManagement ModelLifecycle
  ModelQueries ModelStep ProofsItems ProofsManage ProofsMicro Spec ProofsCore ProofsOwner ProofsTime ProofsLock Scenario
  PropertiesBatch PropertiesLive.

(** ** The reasons, in terms of the state the call found *)

(** The clock, the drift and the window are small enough for 64-bit arithmetic. *)
Definition clock_fits (e : env) (s : state) : Prop := e_now e + drift_of s + tx_window_of s < two64.

(** The log did not take a block and said [m]; a recognised duplicate has no words of its own. *)
Definition log_refused (e : env) (m : string) : Prop :=
  exists k b, e_log e k b = LErr m \/ e_log e k b = LOther m \/ (exists i, e_log e k b = LDup i) /\ m = "duplicate"%string.

(** The text handed to the caller is [pre] and the words of the log. *)
Definition log_failure (e : env) (pre t : string) : Prop := exists m, t = (pre ++ m)%string /\ log_refused e m.

(** The creation time is too far in the future; too old for an approval. *)
Definition in_future (e : env) (s : state) (created : N) : Prop := e_now e + drift_of s < created.
(** See [in_future]. *)
Definition too_old (e : env) (s : state) (created : N) : Prop := created + tx_window_of s < e_now e.

(** The text of the rate limiter, with some number in it (which one: C144). *)
Definition rate_limit_text (m : string) : Prop :=
  exists n : N, m = ("Rate limit exceeded. You can make another call in " ++ pretty n ++ " milliseconds")%string.

(** Reasons of [icrc37_approve_tokens]. *)
Definition approve_reason (e : env) (s : state) (a : approve_arg) (er : err) : Prop :=
  let from := mkAcc (e_caller e) (ai_from_sub (ap_info a)) in
  match er with
  | ENonExistingTokenId => owner_of s (ap_tid a) = None
  | EUnauthorized => exists ow, owner_of s (ap_tid a) = Some ow /\ akey ow <> akey from
  | EInvalidSpender => akey (ai_spender (ap_info a)) = akey (mkAcc anonymous None)
  | ECreatedInFuture t => t = e_now e /\ in_future e s (ai_created (ap_info a))
  | ETooOld => too_old e s (ai_created (ap_info a))
  | EGeneric 0 m => rate_limit_text m
  | EGeneric 1 m =>
      (m = "Maximum approvals per token exceeded"%string /\ max_approvals s <= N.of_nat (length (approvals_on s (ap_tid a))))
      \/ log_failure e "Failed to log transaction: " m
  | _ => False
  end.

(** Reasons of [icrc37_approve_collection]. *)
Definition approve_coll_reason (e : env) (s : state) (a : approval_info) (er : err) : Prop :=
  match er with
  | EInvalidSpender => akey (ai_spender a) = akey (mkAcc anonymous None)
  | ECreatedInFuture t => t = e_now e /\ in_future e s (ai_created a)
  | ETooOld => too_old e s (ai_created a)
  | EGeneric 0 m => rate_limit_text m
  | EGeneric 1 m =>
      (m = "Caller must own at least one NFT to approve collection"%string /\
       forall t o, owners s !! t = Some o -> acc_owner o <> e_caller e) \/
      (m = "Maximum approvals per collection exceeded"%string /\
       max_approvals s <= N.of_nat (length (approvals_of s (mkAcc (e_caller e) (ai_from_sub a)))))
      \/ log_failure e "Failed to log transaction: " m
  | _ => False
  end.

(** The same for an optional creation time. *)
Definition opt (P : N -> Prop) (c : option N) : Prop := exists x, c = Some x /\ P x.

(** Reasons of [icrc37_revoke_token_approvals]. *)
Definition revoke_reason (e : env) (s : state) (a : revoke_arg) (er : err) : Prop :=
  match er with
  | ENonExistingTokenId => owner_of s (rv_tid a) = None
  | EUnauthorized => exists ow, owner_of s (rv_tid a) = Some ow /\ akey ow <> akey (mkAcc (e_caller e) (rv_from_sub a))
  | EApprovalDoesNotExist => approvals_on s (rv_tid a) = []
  | ECreatedInFuture t => t = e_now e /\ opt (in_future e s) (rv_created a)
  | ETooOld => opt (too_old e s) (rv_created a)
  | EGeneric 1 m => log_failure e "Failed to log transaction: " m
  | _ => False
  end.

(** Reasons of [icrc37_revoke_collection_approvals]. *)
Definition revoke_coll_reason (e : env) (s : state) (a : revoke_coll_arg) (er : err) : Prop :=
  match er with
  | EApprovalDoesNotExist => approvals_of s (mkAcc (e_caller e) None) = []
  | ECreatedInFuture t => t = e_now e /\ opt (in_future e s) (rc_created a)
  | ETooOld => opt (too_old e s) (rc_created a)
  | EGeneric 0 m => rate_limit_text m
  | EGeneric 1 m => log_failure e "Failed to log transaction: " m
  | _ => False
  end.

(** Reasons of [icrc37_transfer_from]; a duplicate is one of the ways the log refuses. *)
Definition transfer_from_reason (e : env) (s : state) (a : transfer_from_arg) (er : err) : Prop :=
  let sp := mkAcc (e_caller e) (tf_spender_sub a) in
  match er with
  | ENonExistingTokenId => owner_of s (tf_tid a) = None
  | EInvalidRecipient => akey (tf_to a) = akey (tf_from a) \/ akey (tf_to a) = akey (mkAcc anonymous None)
  | EUnauthorized => exists ow, owner_of s (tf_tid a) = Some ow /\
      (akey ow <> akey (tf_from a) \/ ~ may_move s (tf_tid a) ow sp (e_now e))
  | ECreatedInFuture t => t = e_now e /\ opt (in_future e s) (tf_created a)
  | ETooOld => opt (too_old e s) (tf_created a)
  | EGeneric 0 m => rate_limit_text m
  | EGeneric 1 m => log_failure e "Failed to insert transaction: " m
  | EDuplicate _ => exists m, log_refused e m /\ str_contains "duplicate" (lowercase m) = true
  | _ => False
  end.

(** ** Proofs *)

Lemma u64_try_small n : n < two64 -> u64_try n = Some n.
Proof. intros H. unfold u64_try. rewrite (proj2 (N.ltb_lt _ _) H). reflexivity. Qed.

Lemma timing_cases e s c : clock_fits e s -> verify_approval_timing s c (e_now e) =
  if e_now e + drift_of s <? c then TimeFuture (e_now e) else if c + tx_window_of s <? e_now e then TimeTooOld else TimeOk.
Proof.
  unfold clock_fits, verify_approval_timing. change default_drift with 50000000. change default_tx_window with 10000000000.
  fold (drift_of s). fold (tx_window_of s). intros F.
  rewrite !u64_try_small by lia. change (default 50000000 (Some (drift_of s))) with (drift_of s).
  change (default 0 (Some (tx_window_of s))) with (tx_window_of s). rewrite add64_exact by lia.
  destruct (_ <? c) eqn:E; [reflexivity|]. apply N.ltb_ge in E. rewrite add64_exact by lia. reflexivity.
Qed.

Lemma timing_future e s c t : clock_fits e s -> verify_approval_timing s c (e_now e) = TimeFuture t ->
  t = e_now e /\ in_future e s c.
Proof.
  intros F. rewrite timing_cases by exact F. unfold in_future. destruct (_ <? c) eqn:E.
  - apply N.ltb_lt in E. intros [= <-]. auto.
  - destruct (_ <? e_now e); discriminate.
Qed.

Lemma timing_old e s c : clock_fits e s -> verify_approval_timing s c (e_now e) = TimeTooOld -> too_old e s c.
Proof.
  intros F. rewrite timing_cases by exact F. unfold too_old. destruct (_ <? c); [discriminate|].
  destruct (_ <? e_now e) eqn:E; [|discriminate]. apply N.ltb_lt in E. auto.
Qed.

Lemma opt_timing_future e s c t : clock_fits e s -> verify_opt_timing s c (e_now e) = TimeFuture t ->
  t = e_now e /\ opt (in_future e s) c.
Proof.
  intros F. destruct c as [c|]; [|discriminate]. intros H. destruct (timing_future _ _ _ _ F H). split; [auto|].
  exists c. auto.
Qed.

Lemma opt_timing_old e s c : clock_fits e s -> verify_opt_timing s c (e_now e) = TimeTooOld -> opt (too_old e s) c.
Proof. intros F. destruct c as [c|]; [|discriminate]. intros H. exists c. split; [auto|]. apply timing_old; auto. Qed.

Lemma log_refused_add e t s s2 ans : add_transaction e t s = (s2, ans) -> (forall i, ans <> LOk i) ->
  log_refused e (logans_msg ans).
Proof.
  intros A N. destruct (add_transaction_inv _ _ _ _ _ A) as (E & _). exists (lcalls s), t.
  destruct ans as [i|i|m|m]; cbn [logans_msg];
    [destruct (N i); reflexivity|right; right; eauto|left; congruence|right; left; congruence].
Qed.

(** One item of a batch as a batch of one. *)
Lemma single {A} (f : state -> A -> option (state * res N)) s a s' er :
  ans_batch s (run_items f s [a]) = (s', ABatch [Err er]) -> f s a = Some (s', Err er).
Proof. simpl. destruct (f s a) as [[s1 r]|]; simpl; [|discriminate]. intros [= -> ->]. reflexivity. Qed.

Theorem C92_approve_reasons e s a s' er :
  clock_fits e s -> step e (OApproveTokens [a]) s = (s', ABatch [Err er]) -> approve_reason e s a er.
Proof.
  intros F H. apply (single (approve_token e)) in H. unfold approve_token in H.
  destruct (guard_sliding_window (e_now e) (ap_tid a) s) as [s1 pass] eqn:G.
  destruct (guard_quiet _ _ _ _ _ G) as (w & n & ->). clear G.
  destruct pass; cbn [negb] in H; [|injection H as _ <-; eexists; reflexivity].
  destruct (verify_approval_timing _ _ _) eqn:V.
  2: { injection H as _ <-. apply timing_future in V; [exact V|exact F]. }
  2: { injection H as _ <-. apply timing_old in V; [exact V|exact F]. }
  change (owner_of (set_windows w (set_lcalls n s)) (ap_tid a)) with (owner_of s (ap_tid a)) in H.
  destruct (owner_of s (ap_tid a)) as [ow|] eqn:O; [|injection H as _ <-; exact O].
  destruct (acc_eqb ow _) eqn:E1; cbn [negb] in H.
  2: { injection H as _ <-. exists ow. split; [exact O|]. apply acc_eqb_false. exact E1. }
  destruct (acc_eqb (ai_spender (ap_info a)) anonymous_account) eqn:E2.
  { injection H as _ <-. apply acc_eqb_true in E2. exact E2. }
  cbn [cfg tok_appr set_windows set_lcalls] in H. rewrite max_approvals_eq in H.
  destruct (match tok_appr s !! ap_tid a with Some m => _ | None => false end) eqn:X.
  { injection H as _ <-. left. split; [reflexivity|]. unfold approvals_on.
    destruct (tok_appr s !! ap_tid a) as [m|]; [|discriminate]. apply N.leb_le in X.
    rewrite map_length. exact X. }
  destruct (add_transaction e _ _) as [s2 ans] eqn:A. pose proof (log_refused_add _ _ _ _ _ A) as L.
  destruct ans as [idx|k|m|m]; [destruct (_ <? two64); discriminate|..]; injection H as _ <-; right; eexists; (split; [reflexivity|]); apply L; discriminate.
Qed.

Theorem C92_approve_collection_reasons e s a s' er :
  clock_fits e s -> step e (OApproveCollection [a]) s = (s', ABatch [Err er]) -> approve_coll_reason e s a er.
Proof.
  intros F H. apply (single (approve_collection e)) in H. unfold approve_collection in H.
  destruct (guard_sliding_window (e_now e) 0 s) as [s1 pass] eqn:G.
  destruct (guard_quiet _ _ _ _ _ G) as (w & n & ->). clear G.
  destruct pass; cbn [negb] in H; [|injection H as _ <-; eexists; reflexivity].
  destruct (verify_approval_timing _ _ _) eqn:V.
  2: { injection H as _ <-. apply timing_future in V; [exact V|exact F]. }
  2: { injection H as _ <-. apply timing_old in V; [exact V|exact F]. }
  destruct (acc_eqb (ai_spender a) anonymous_account) eqn:E2.
  { injection H as _ <-. apply acc_eqb_true in E2. exact E2. }
  change (has_nfts (set_windows w (set_lcalls n s))) with (has_nfts s) in H.
  destruct (has_nfts s (e_caller e)) eqn:E1; cbn [negb] in H.
  2: { injection H as _ <-. left. split; [reflexivity|]. intros t o Ho Hc. unfold owners in Ho. rewrite lookup_fmap in Ho.
       destruct (tokens s !! t) as [tok|] eqn:T; [|discriminate]. injection Ho as <-.
       unfold has_nfts in E1. rewrite <- not_true_iff_false in E1. apply E1. apply existsb_exists. exists (t, tok).
       split; [apply elem_of_list_In, elem_of_map_to_list; exact T|]. apply bool_decide_eq_true_2. exact Hc. }
  cbn [cfg col_appr set_windows set_lcalls] in H. rewrite max_approvals_eq in H.
  destruct (match col_appr s !! _ with Some m => _ | None => false end) eqn:X.
  { injection H as _ <-. right. left. split; [reflexivity|]. unfold approvals_of.
    destruct (col_appr s !! _) as [m|]; [|discriminate]. apply N.leb_le in X.
    rewrite map_length. exact X. }
  destruct (add_transaction e _ _) as [s2 ans] eqn:A. pose proof (log_refused_add _ _ _ _ _ A) as L.
  destruct ans as [idx|k|m|m]; [discriminate|..]; injection H as _ <-; right; right; eexists; (split; [reflexivity|]); apply L; discriminate.
Qed.

Theorem C92_revoke_reasons e s a s' er :
  clock_fits e s -> step e (ORevokeTokens [a]) s = (s', ABatch [Err er]) -> revoke_reason e s a er.
Proof.
  intros F H. cbn [step] in H. unfold icrc37_revoke_token_approvals in H.
  destruct (guard_sliding_window (e_now e) (rv_tid a) s) as [s1 pass] eqn:G.
  destruct (guard_quiet _ _ _ _ _ G) as (w & n & ->). clear G.
  destruct pass; cbn [negb] in H; [|discriminate].
  assert (H1 : exists s2, revoke_token_approvals e (set_windows w (set_lcalls n s)) a = Some (s2, Err er)).
  { unfold take_n in H. destruct (N.to_nat _) as [|k]; cbn [firstn run_items] in H; [discriminate|].
    rewrite firstn_nil in H. cbn [run_items] in H.
    destruct (revoke_token_approvals _ _ a) as [[s2 r]|]; [|discriminate]. injection H as _ ->. eauto. }
  clear H. destruct H1 as [s2 H]. unfold revoke_token_approvals in H.
  destruct (verify_opt_timing _ _ _) eqn:V.
  2: { injection H as _ <-. apply opt_timing_future in V; [exact V|exact F]. }
  2: { injection H as _ <-. apply opt_timing_old in V; [exact V|exact F]. }
  change (owner_of (set_windows w (set_lcalls n s)) (rv_tid a)) with (owner_of s (rv_tid a)) in H.
  destruct (owner_of s (rv_tid a)) as [ow|] eqn:O; [|injection H as _ <-; exact O].
  destruct (acc_eqb ow _) eqn:E1; cbn [negb] in H.
  2: { injection H as _ <-. exists ow. split; [exact O|]. apply acc_eqb_false. exact E1. }
  cbn [tok_appr set_windows set_lcalls] in H.
  destruct (tok_appr s !! rv_tid a) as [m|] eqn:T.
  2: { injection H as _ <-. unfold revoke_reason, approvals_on. rewrite T. reflexivity. }
  destruct (add_transaction e _ _) as [s3 ans] eqn:A. pose proof (log_refused_add _ _ _ _ _ A) as L.
  destruct ans as [idx|k|m'|m']; [discriminate|..]; injection H as _ <-; eexists; (split; [reflexivity|]); apply L; discriminate.
Qed.

Theorem C92_revoke_collection_reasons e s a s' er :
  clock_fits e s -> step e (ORevokeCollection [a]) s = (s', ABatch [Err er]) -> revoke_coll_reason e s a er.
Proof.
  intros F H. cbn [step] in H. unfold icrc37_revoke_collection_approvals in H.
  assert (H1 : exists s2, revoke_collection_approvals e s a = Some (s2, Err er)).
  { unfold take_n in H. destruct (N.to_nat _) as [|k]; cbn [firstn run_items ans_batch] in H; [discriminate|].
    rewrite firstn_nil in H. cbn [run_items] in H.
    destruct (revoke_collection_approvals _ _ a) as [[s2 r]|]; [|discriminate]. injection H as _ ->. eauto. }
  clear H. destruct H1 as [s2 H]. unfold revoke_collection_approvals in H.
  destruct (guard_sliding_window (e_now e) 0 s) as [s1 pass] eqn:G.
  destruct (guard_quiet _ _ _ _ _ G) as (w & n & ->). clear G.
  destruct pass; cbn [negb] in H; [|injection H as _ <-; eexists; reflexivity].
  destruct (verify_opt_timing _ _ _) eqn:V.
  2: { injection H as _ <-. apply opt_timing_future in V; [exact V|exact F]. }
  2: { injection H as _ <-. apply opt_timing_old in V; [exact V|exact F]. }
  cbn [col_appr set_windows set_lcalls] in H.
  destruct (col_appr s !! _) as [m|] eqn:T.
  2: { injection H as _ <-. unfold revoke_coll_reason, approvals_of. rewrite T. reflexivity. }
  destruct (add_transaction e _ _) as [s3 ans] eqn:A. pose proof (log_refused_add _ _ _ _ _ A) as L.
  destruct ans as [idx|k|m'|m']; [discriminate|..]; injection H as _ <-; eexists; (split; [reflexivity|]); apply L; discriminate.
Qed.

Lemma approved_in_valid now m sp : approved_in m sp now -> has_valid now m (akey sp) = true.
Proof.
  intros (m' & k & ap & -> & E & L). unfold has_valid, unexpired. rewrite E. destruct (a_expires ap); [apply N.ltb_lt; exact L|reflexivity].
Qed.

Theorem C92_transfer_from_reasons e s a s' er :
  clock_fits e s -> step e (OTransferFrom [a]) s = (s', ABatch [Err er]) -> transfer_from_reason e s a er.
Proof.
  intros F H. apply (single (transfer_from e)) in H. unfold transfer_from in H.
  destruct (guard_sliding_window (e_now e) (tf_tid a) s) as [s1 pass] eqn:G.
  destruct (guard_quiet _ _ _ _ _ G) as (w & n & ->). clear G.
  destruct pass; cbn [negb] in H; [|injection H as _ <-; eexists; reflexivity].
  destruct (verify_opt_timing _ _ _) eqn:V.
  2: { injection H as _ <-. apply opt_timing_future in V; [exact V|exact F]. }
  2: { injection H as _ <-. apply opt_timing_old in V; [exact V|exact F]. }
  cbn [tokens set_windows set_lcalls] in H.
  destruct (tokens s !! tf_tid a) as [nft|] eqn:T.
  2: { injection H as _ <-. unfold transfer_from_reason, owner_of. rewrite T. reflexivity. }
  destruct (acc_eqb (tf_from a) (tf_to a)) eqn:E1.
  { injection H as _ <-. left. apply acc_eqb_true in E1. auto. }
  destruct (acc_eqb (tf_to a) anonymous_account) eqn:E2.
  { injection H as _ <-. right. apply acc_eqb_true in E2. exact E2. }
  set (sp := mkAcc (e_caller e) (tf_spender_sub a)) in H.
  rewrite check_token_approval_eq in H. cbv zeta in H.
  rewrite check_collection_approval_eq in H. cbv zeta in H.
  cbn [tok_appr col_appr set_tok_appr set_windows set_lcalls] in H.
  destruct (negb (acc_eqb (t_owner nft) (tf_from a)) || _) eqn:B.
  - injection H as _ <-. exists (t_owner nft). split; [unfold owner_of; rewrite T; reflexivity|].
    apply orb_true_iff in B. destruct B as [B|B].
    + left. apply negb_true_iff, acc_eqb_false in B. exact B.
    + destruct (decide (akey (t_owner nft) = akey (tf_from a))) as [Eo|Ne]; [|left; exact Ne]. right. intros M.
      rewrite !andb_true_iff, !negb_true_iff in B. destruct B as [[B1 B2] B3].
      destruct M as [M|[M|M]].
      * apply acc_eqb_false in B1. apply B1. rewrite <- Eo. exact M.
      * apply approved_in_valid in M. fold sp in M. congruence.
      * apply approved_in_valid in M. fold sp in M. congruence.
  - destruct (add_transaction e _ _) as [s3 ans] eqn:A. pose proof (log_refused_add _ _ _ _ _ A) as L.
    destruct ans as [idx|k|m'|m']; [discriminate|..]; injection H as _ <-; unfold transfer_from_log_err.
    + eexists; (split; [reflexivity|]). apply L; discriminate.
    + destruct (str_contains _ _) eqn:D; [exists m'; split; [apply L; discriminate|exact D]|].
      eexists; (split; [reflexivity|]). apply L; discriminate.
    + eexists; (split; [reflexivity|]). apply L; discriminate.
Qed.

(** ** icrc7_transfer: full statement, refutation, what holds *)

(** Reasons of [icrc7_transfer], as ICRC-7 words them: a bad recipient is the anonymous principal or the owner itself,
    and a caller who does not own the token is told so. *)
Definition transfer_reason (e : env) (s : state) (a : transfer_arg) (er : err) : Prop :=
  match er with
  | ENonExistingTokenId => owner_of s (ta_tid a) = None
  | EUnauthorized => exists ow, owner_of s (ta_tid a) = Some ow /\ acc_owner ow <> e_caller e
  | EInvalidRecipient => acc_owner (ta_to a) = anonymous \/
                         exists ow, owner_of s (ta_tid a) = Some ow /\ akey ow = akey (ta_to a)
  | ECreatedInFuture t => t = e_now e /\ opt (in_future e s) (ta_created a)
  | ETooOld => opt (too_old e s) (ta_created a)
  | EGeneric 0 m =>
      rate_limit_text m \/
      (m = "Exceeds Max Memo Size"%string /\ memo_limit s < nlen (default [] (ta_memo a))) \/
      (m = "Anonymous caller not allowed to transfer"%string /\ e_caller e = anonymous) \/
      (m = "Exceed Max allowed Update Batch Size"%string /\ c_max_update (cfg s) = Some 0)
  | EGeneric 2 m => log_failure e "Failed to log transaction: " m
  | _ => False
  end.

Definition C92_statement : Prop :=
  forall e s a s' er, reachable s -> clock_fits e s ->
    step e (OTransfer [a]) s = (s', ABatch [Err er]) -> transfer_reason e s a er.

(** bob tries to move alice's token to carol: "invalid recipient". *)
Theorem C92_transfer_reasons_refuted : ~ C92_statement.
Proof.
  intros H.
  specialize (H (from_ bob 3000000000) demo2 (xfer carol 1)
                (fst (step (from_ bob 3000000000) (OTransfer [xfer carol 1]) demo2)) EInvalidRecipient
                (demo_reachable demo2_h)).
  assert (C : clock_fits (from_ bob 3000000000) demo2) by (vm_compute; reflexivity).
  assert (E : step (from_ bob 3000000000) (OTransfer [xfer carol 1]) demo2 =
              (fst (step (from_ bob 3000000000) (OTransfer [xfer carol 1]) demo2), ABatch [Err EInvalidRecipient])).
  { apply snd_pair. vm_compute. reflexivity. }
  destruct (H C E) as [X|(ow & X & Y)]; [discriminate X|].
  assert (Z : owner_of demo2 (ta_tid (xfer carol 1)) = Some (acct alice)) by (vm_compute; reflexivity).
  rewrite Z in X. injection X as <-. discriminate Y.
Qed.

(** What holds: the same, except that "invalid recipient" may also mean that the caller is not the owner (and
    "unauthorized" is never said). *)
Theorem C92_transfer_reasons_partial e s a s' er :
  clock_fits e s -> step e (OTransfer [a]) s = (s', ABatch [Err er]) ->
  er <> EUnauthorized /\
  (transfer_reason e s a er \/
   (er = EInvalidRecipient /\ exists ow, owner_of s (ta_tid a) = Some ow /\ acc_owner ow <> e_caller e)).
Proof.
  intros F H. cbn [step] in H. unfold icrc7_transfer in H.
  destruct (usize_try _) as [mx|] eqn:U; [|discriminate].
  destruct (_ && _) eqn:At.
  { injection H as _ <-. split; [discriminate|]. left. right. right. right. split; [reflexivity|].
    apply andb_true_iff in At. destruct At as [_ At]. apply N.ltb_lt in At. unfold nlen in At. simpl in At.
    unfold usize_try in U. destruct (c_max_update (cfg s)) as [k|]; simpl in U;
      [destruct (k <? two32); [|discriminate]; f_equal; injection U as <-; lia|].
    vm_compute in U. injection U as <-. lia. }
  destruct (bool_decide (e_caller e = anonymous)) eqn:An.
  { injection H as _ <-. split; [discriminate|]. left. right. right. left. apply bool_decide_eq_true in An. auto. }
  assert (H1 : exists s2, transfer_nft e s a = Some (s2, Err er)).
  { unfold take_n in H. destruct (N.to_nat _) as [|k]; cbn [firstn run_items ans_batch] in H; [discriminate|].
    rewrite firstn_nil in H. cbn [run_items] in H.
    destruct (transfer_nft _ _ a) as [[s2 r]|]; [|discriminate]. injection H as _ ->. eauto. }
  clear H. destruct H1 as [s2 H]. unfold transfer_nft in H.
  destruct (guard_sliding_window (e_now e) (ta_tid a) s) as [s1 pass] eqn:G.
  destruct (guard_quiet _ _ _ _ _ G) as (w & n & ->). clear G.
  destruct pass; cbn [negb] in H; [|injection H as _ <-; split; [discriminate|left; left; eexists; reflexivity]].
  cbn [tokens set_windows set_lcalls cfg] in H.
  change (check_memo (set_windows w (set_lcalls n s))) with (check_memo s) in H.
  destruct (tokens s !! ta_tid a) as [nft|] eqn:T.
  2: { injection H as _ <-. split; [discriminate|]. left. unfold transfer_reason, owner_of. rewrite T. reflexivity. }
  assert (O : owner_of s (ta_tid a) = Some (t_owner nft)) by (unfold owner_of; rewrite T; reflexivity).
  destruct (check_memo s (ta_memo a)) as [[|]|] eqn:CM; [|injection H as _ <-; split; [discriminate|]|discriminate].
  2: { left. right. left. split; [reflexivity|]. unfold check_memo in CM. destruct (ta_memo a) as [m|]; [|discriminate].
       unfold usize_try in CM. unfold memo_limit. destruct (_ <? two32); [|discriminate]. injection CM as CM.
       apply N.leb_gt in CM. exact CM. }
  destruct (_ || _) eqn:B.
  { injection H as _ <-. split; [discriminate|]. rewrite !orb_true_iff in B. destruct B as [[B|B]|B].
    - right. split; [reflexivity|]. exists (t_owner nft). split; [exact O|]. apply negb_true_iff, bool_decide_eq_false in B. exact B.
    - left. left. apply bool_decide_eq_true in B. exact B.
    - left. right. exists (t_owner nft). split; [exact O|]. apply acc_eqb_true. exact B. }
  unfold clock_fits in F. change default_drift with 50000000 in H. change default_tx_window with 10000000000 in H.
  rewrite u64_setting_ok in H by (unfold drift_of in F; lia).
  rewrite add64_exact in H by (unfold drift_of in F; lia). fold (drift_of s) in H.
  destruct (_ <? default (e_now e) (ta_created a)) eqn:E1.
  { injection H as _ <-. split; [discriminate|]. left. split; [reflexivity|]. apply N.ltb_lt in E1.
    destruct (ta_created a) as [c|]; simpl in E1; [|lia]. exists c. split; [reflexivity|exact E1]. }
  rewrite u64_setting_ok in H by (unfold tx_window_of in F; lia). fold (tx_window_of s) in H.
  rewrite add64_exact in H by lia. unfold sat_sub in H.
  destruct (default (e_now e) (ta_created a) <? _) eqn:E2.
  { injection H as _ <-. split; [discriminate|]. left. apply N.ltb_lt in E2.
    destruct (ta_created a) as [c|] eqn:Ec; simpl in E2; [|lia]. exists c. split; [exact Ec|]. unfold too_old. lia. }
  destruct (add_transaction e _ _) as [s3 ans] eqn:A. pose proof (log_refused_add _ _ _ _ _ A) as L.
  destruct ans as [idx|k|m'|m']; [discriminate|discriminate|..]; injection H as _ <-;
    (split; [discriminate|]; left; eexists; (split; [reflexivity|]); apply L; discriminate).
Qed.

(** ** Management calls *)

(** Reasons of [mint]. *)
Definition mint_reason (e : env) (s : state) (l : list mint_req) (er : err) : Prop :=
  match er with
  | EConcurrentManagementCall => guards s <> ∅
  | EExceedMaxAllowedSupplyCap =>
      default 10000 (c_supply_cap (cfg s)) < N.of_nat (length (map_to_list (tokens s))) + nlen l
  | EInvalidMemo => exists r, r ∈ l /\ memo_limit s < nlen (default [] (mr_memo r))
  | EStorageCanisterError m => log_refused e m
  | _ => False
  end.

Definition C92_mint_statement : Prop :=
  forall e s l s' er, reachable s -> step e (OMint l) s = (s', AErr er) -> mint_reason e s l er.

(** Eleven tokens minted at once into an empty collection for a hundred, with a batch limit of ten: "supply cap
    exceeded". *)
Definition small_batches : op :=
  OUpdateCollection (mkCU None None None None None None (Some 10) None None None None None None None None).

Theorem C92_mint_reasons_refuted : ~ C92_mint_statement.
Proof.
  intros H. set (h := [(from_ admin 0, small_batches)]).
  set (l := repeat (mkMint (acct alice) None []) 11).
  specialize (H (from_ admin 1) (run h demo0) l (fst (step (from_ admin 1) (OMint l) (run h demo0)))
                EExceedMaxAllowedSupplyCap (demo_reachable h)).
  assert (E : step (from_ admin 1) (OMint l) (run h demo0) =
              (fst (step (from_ admin 1) (OMint l) (run h demo0)), AErr EExceedMaxAllowedSupplyCap)).
  { apply snd_pair. vm_compute. reflexivity. }
  specialize (H E). vm_compute in H. discriminate H.
Qed.

Lemma check_memos_false s l : check_memos s l = Some false -> exists r, r ∈ l /\ memo_limit s < nlen (default [] (mr_memo r)).
Proof.
  induction l as [|r l IH]; simpl; [discriminate|]. unfold check_memo, usize_try, memo_limit in *.
  destruct (mr_memo r) as [m|] eqn:M.
  - destruct (_ <? two32); [|discriminate]. destruct (nlen m <=? _) eqn:E.
    + intros H. destruct (IH H) as (r' & Hr & Hl). exists r'. split; [right; exact Hr|exact Hl].
    + intros _. exists r. split; [left|]. rewrite M. simpl. apply N.leb_gt in E. exact E.
  - intros H. destruct (IH H) as (r' & Hr & Hl). exists r'. split; [right; exact Hr|exact Hl].
Qed.

Lemma mint_log_refused e l : forall id s s' msg, mint_log e id l s = (s', Some msg) -> log_refused e msg.
Proof.
  induction l as [|r l IH]; intros id s s' msg H; simpl in H; [discriminate|].
  destruct (add_transaction e _ s) as [s1 ans] eqn:A. pose proof (log_refused_add _ _ _ _ _ A) as L.
  destruct ans; [eauto|injection H as _ <-; apply L; discriminate..].
Qed.

Theorem C92_mint_reasons_partial e s l s' er :
  step e (OMint l) s = (s', AErr er) ->
  mint_reason e s l er \/
  (er = EExceedMaxAllowedSupplyCap /\ default 100 (c_max_update (cfg s)) < nlen l).
Proof. change 100 with default_max_update.
  cbn [step]. unfold mint, with_permission. destruct (has_permission _ _ _); [|discriminate].
  rewrite (with_lock_eq _ _ _ (commutes_mint e l)). destruct (decide _) as [Gd|Gd]; [|intros [= _ <-]; left; exact Gd].
  unfold mint_body.
  destruct (_ <? nlen l) eqn:E1; [intros [= _ <-]; right; split; [reflexivity|apply N.ltb_lt; exact E1]|].
  destruct (_ <? _ + _) eqn:E2; [intros [= _ <-]; left; apply N.ltb_lt; exact E2|].
  destruct (check_memos s l) as [[|]|] eqn:CM; [|intros [= _ <-]; left; apply check_memos_false; exact CM|discriminate].
  destruct (mint_metadata _ _ _) as [m|]; [|discriminate].
  destruct (mint_log e _ l _) as [s2 [msg|]] eqn:L; [|discriminate]. intros [= _ <-]. left. eapply mint_log_refused; eauto.
Qed.

(** Reasons of [burn_nft] and [update_nft_metadata]. *)
Theorem C92_burn_reasons e s t s' er :
  step e (OBurn t) s = (s', AErr er) ->
  match er with
  | EConcurrentManagementCall => guards s <> ∅
  | ETokenDoesNotExist => owner_of s t = None
  | ENotTokenOwner => exists ow, owner_of s t = Some ow /\ acc_owner ow <> e_caller e
  | EStorageCanisterError m => log_refused e m
  | _ => False
  end.
Proof.
  cbn [step]. unfold burn_nft. rewrite (with_lock_eq _ _ _ (commutes_burn e t)).
  destruct (decide _) as [Gd|Gd]; [|intros [= _ <-]; exact Gd]. unfold burn_body.
  destruct (tokens s !! t) as [tok|] eqn:T; [|intros [= _ <-]; unfold owner_of; rewrite T; reflexivity].
  destruct (bool_decide _) eqn:B; cbn [negb].
  2: { intros [= _ <-]. exists (t_owner tok). split; [unfold owner_of; rewrite T; reflexivity|].
       apply bool_decide_eq_false in B. auto. }
  destruct (add_transaction e _ s) as [s1 ans] eqn:A. pose proof (log_refused_add _ _ _ _ _ A) as L.
  destruct ans; [discriminate|..]; intros [= _ <-]; apply L; discriminate.
Qed.

Theorem C92_update_reasons e s t kvs s' er :
  step e (OUpdateMeta t kvs) s = (s', AErr er) ->
  match er with
  | EConcurrentManagementCall => guards s <> ∅
  | ETokenDoesNotExist => owner_of s t = None
  | EStorageCanisterError m => log_refused e m
  | _ => False
  end.
Proof.
  cbn [step]. unfold update_nft_metadata, with_permission. destruct (has_permission _ _ _); [|discriminate].
  rewrite (with_lock_eq _ _ _ (commutes_update e t kvs)). destruct (decide _) as [Gd|Gd]; [|intros [= _ <-]; exact Gd].
  unfold update_nft_metadata_body.
  destruct (tokens s !! t) as [tok|] eqn:T; [|intros [= _ <-]; unfold owner_of; rewrite T; reflexivity].
  destruct (replace_metadata _ _ _) as [m|]; [|discriminate].
  destruct (add_transaction e _ _) as [s1 ans] eqn:A. pose proof (log_refused_add _ _ _ _ _ A) as L.
  destruct ans; [discriminate|..]; intros [= _ <-]; apply L; discriminate.
Qed.

(** Settings, permissions: the lock is the only reason for an error. *)
Theorem C92_settings_reasons e s o s' er :
  (exists u, o = OUpdateCollection u) \/ (exists p q, o = OGrant p q) \/ (exists p q, o = ORevokePerm p q) ->
  step e o s = (s', AErr er) -> er = EConcurrentManagementCall /\ guards s <> ∅.
Proof.
  intros [(u & ->)|[(p & q & ->)|(p & q & ->)]]; cbn [step];
    [unfold update_collection_metadata|unfold grant_permission|unfold revoke_permission]; unfold with_permission;
    (destruct (has_permission _ _ _); [|discriminate]);
    [rewrite (with_lock_eq _ _ _ (commutes_cfg u))|rewrite (with_lock_eq _ _ _ (commutes_perm (perm_grant p q)))|
     rewrite (with_lock_eq _ _ _ (commutes_perm (perm_revoke p q)))];
    (destruct (decide _) as [Gd|Gd]; [discriminate|intros [= _ <-]; auto]).
Qed.

(** Cases: each of the structural reasons. *)
Example C92_case :
  clock_fits (from_ bob 3000000000) demo2 /\
  snd (step (from_ bob 3000000000) (OApproveTokens [appr 1 carol 3000000000 None]) demo2) = ABatch [Err EUnauthorized] /\
  snd (step (from_ bob 3000000000) (OApproveTokens [appr 9 carol 3000000000 None]) demo2) = ABatch [Err ENonExistingTokenId] /\
  snd (step (from_ alice 3000000000) (OApproveTokens [appr 1 anonymous 3000000000 None]) demo2) = ABatch [Err EInvalidSpender] /\
  snd (step (from_ carol 3000000000) (OApproveCollection [info bob 3000000000 None]) demo2)
    = ABatch [Err (EGeneric 1 "Caller must own at least one NFT to approve collection")] /\
  snd (step (from_ carol 3000000000) (ORevokeCollection [mkRevokeCollArg None None None None]) demo2)
    = ABatch [Err EApprovalDoesNotExist] /\
  snd (step (from_ bob 3000000000) (OTransferFrom [tfrom alice bob 2]) demo2) = ABatch [Err EUnauthorized] /\
  snd (step (from_ bob 3000000000) (OBurn 1) demo2) = AErr ENotTokenOwner /\
  snd (step (from_ admin 3000000000) (OUpdateMeta 9 []) demo2) = AErr ETokenDoesNotExist.
Proof. vm_compute. repeat (split; [reflexivity|]). reflexivity. Qed.

(** A log that answers with an error: each call hands on its words. *)
Example C92_log_case :
  let e who := with_log (fun _ _ => LErr "log is full") (from_ who 3000000000) in
  clock_fits (e alice) demo2 /\
  snd (step (e alice) (OTransfer [xfer carol 1]) demo2)
    = ABatch [Err (EGeneric 2 "Failed to log transaction: log is full")] /\
  snd (step (e alice) (OApproveTokens [appr 1 carol 3000000000 None]) demo2)
    = ABatch [Err (EGeneric 1 "Failed to log transaction: log is full")] /\
  snd (step (e bob) (OTransferFrom [tfrom alice carol 1]) demo2)
    = ABatch [Err (EGeneric 1 "Failed to insert transaction: log is full")] /\
  snd (step (e alice) (OBurn 1) demo2) = AErr (EStorageCanisterError "log is full") /\
  snd (step (with_log (fun _ _ => LErr "Duplicate of block 3") (from_ bob 3000000000)) (OTransferFrom [tfrom alice carol 1]) demo2)
    = ABatch [Err (EDuplicate 2)].
Proof. vm_compute. repeat (split; [reflexivity|]). reflexivity. Qed.

Print Assumptions C92_approve_reasons.
Print Assumptions C92_approve_collection_reasons.
Print Assumptions C92_revoke_reasons.
Print Assumptions C92_revoke_collection_reasons.
Print Assumptions C92_transfer_from_reasons.
Print Assumptions C92_transfer_reasons_refuted.
Print Assumptions C92_transfer_reasons_partial.
Print Assumptions C92_mint_reasons_refuted.
Print Assumptions C92_mint_reasons_partial.
Print Assumptions C92_burn_reasons.
Print Assumptions C92_update_reasons.
Print Assumptions C92_settings_reasons.

(** ** C93: a repeated transfer is reported as a duplicate of the block it repeats *)

(** The same call, with a log that knows it as block [n]. *)
Definition knows (n : N) (e : env) : env := mkEnv (e_caller e) (e_now e) (fun _ _ => LDup n).

(** Full statement: a call that would succeed is answered "duplicate of n" when the log has it already as block n. *)
Definition C93_statement : Prop :=
  (forall e s a s' i n, reachable s -> step e (OTransfer [a]) s = (s', ABatch [Ok i]) ->
     snd (step (knows n e) (OTransfer [a]) s) = ABatch [Err (EDuplicate n)]) /\
  (forall e s a s' i n, reachable s -> step e (OTransferFrom [a]) s = (s', ABatch [Ok i]) ->
     snd (step (knows n e) (OTransferFrom [a]) s) = ABatch [Err (EDuplicate n)]).

(** icrc7_transfer claims success ... *)
Theorem C93_duplicates_reported_refuted : ~ C93_statement.
Proof.
  intros [H _].
  assert (E : step (from_ alice 3000000000) (OTransfer [xfer carol 1]) demo2 =
              (fst (step (from_ alice 3000000000) (OTransfer [xfer carol 1]) demo2), ABatch [Ok 5])).
  { apply snd_pair. vm_compute. reflexivity. }
  specialize (H _ _ _ _ _ 3 (demo_reachable demo2_h) E). vm_compute in H. discriminate H.
Qed.

(** ... and icrc37_transfer_from gives a general error; where the log words the matter itself, always "duplicate of 2". *)
Theorem C93_transfer_from_duplicates_refuted :
  exists e s a s' i n, reachable s /\ step e (OTransferFrom [a]) s = (s', ABatch [Ok i]) /\
    snd (step (knows n e) (OTransferFrom [a]) s) <> ABatch [Err (EDuplicate n)] /\
    snd (step (with_log (fun _ _ => LErr "Duplicate of block 3") e) (OTransferFrom [a]) s) = ABatch [Err (EDuplicate 2)].
Proof.
  exists (from_ bob 3000000000), demo2, (tfrom alice carol 1),
    (fst (step (from_ bob 3000000000) (OTransferFrom [tfrom alice carol 1]) demo2)), 5, 3.
  split; [apply (demo_reachable demo2_h)|]. split; [apply snd_pair; vm_compute; reflexivity|].
  split; [vm_compute; discriminate|vm_compute; reflexivity].
Qed.

(** What holds: a transfer the log knows already is not executed again, and icrc7_transfer answers the number of the
    block it repeats. *)
Theorem C93_duplicates_not_repeated_partial e o s s' a n :
  (exists l, o = OTransfer l) \/ (exists l, o = OTransferFrom l) ->
  step (knows n e) o s = (s', a) -> owners s' = owners s /\ log s' = log s.
Proof.
  intros Ho H.
  assert (RI : forall A (f : state -> A -> option (state * res N)) (l : list A),
    (forall x y b r, f x b = Some (y, r) -> owners y = owners x /\ log y = log x) ->
    forall x y rs, run_items f x l = Some (y, rs) -> owners y = owners x /\ log y = log x).
  { intros A f l Hf. induction l as [|b l IH]; intros x y rs R; simpl in R; [injection R as <- <-; auto|].
    destruct (f x b) as [[x1 r]|] eqn:Fx; [|discriminate].
    destruct (run_items f x1 l) as [[x2 rs']|] eqn:G; [|discriminate]. injection R as <- <-.
    destruct (Hf _ _ _ _ Fx) as [E1 E2]. destruct (IH _ _ _ G) as [E3 E4]. split; congruence. }
  assert (Q : forall x y, quiet x y -> owners y = owners x /\ log y = log x) by (intros x y (w & k & ->); auto).
  destruct Ho as [(l & ->)|(l & ->)]; cbn [step] in H.
  - unfold icrc7_transfer in H. destruct l as [|b l]; [injection H as <- _; auto|].
    destruct (usize_try _) as [mx|]; [|injection H as <- _; auto].
    destruct (_ && _); [injection H as <- _; auto|].
    destruct (bool_decide _); [injection H as <- _; auto|].
    destruct (run_items _ _ _) as [[s2 rs]|] eqn:G; [|injection H as <- _; auto]. injection H as <- _.
    eapply RI; [|exact G]. clear - Q. intros x y b r H.
    unfold transfer_nft in H.
    destruct (guard_sliding_window _ _ _) as [x1 pass] eqn:G. destruct (guard_quiet _ _ _ _ _ G) as (w & k & ->). clear G.
    destruct pass; cbn [negb] in H; [|injection H as <- _; auto].
    destruct (tokens _ !! _); [|injection H as <- _; auto].
    destruct (check_memo _ _) as [[|]|]; [|injection H as <- _; auto|discriminate].
    destruct (_ || _); [injection H as <- _; auto|].
    destruct (u64_setting _ _); [|discriminate]. destruct (_ <? _); [injection H as <- _; auto|].
    destruct (u64_setting _ _); [|discriminate]. destruct (_ <? _); [injection H as <- _; auto|].
    unfold add_transaction in H. cbn in H. injection H as <- _. auto.
  - unfold icrc37_transfer_from in H.
    destruct (run_items _ _ _) as [[s2 rs]|] eqn:G; [|injection H as <- _; auto]. injection H as <- _.
    eapply RI; [|exact G]. clear - Q. intros x y b r H.
    unfold transfer_from in H.
    destruct (guard_sliding_window _ _ _) as [x1 pass] eqn:G. destruct (guard_quiet _ _ _ _ _ G) as (w & k & ->). clear G.
    destruct pass; cbn [negb] in H; [|injection H as <- _; auto].
    destruct (verify_opt_timing _ _ _); [|injection H as <- _; auto..].
    destruct (tokens _ !! _); [|injection H as <- _; auto].
    destruct (acc_eqb _ _); [injection H as <- _; auto|].
    destruct (acc_eqb _ _); [injection H as <- _; auto|].
    rewrite check_token_approval_eq, check_collection_approval_eq in H.
    destruct (_ || _); [injection H as <- _; auto|].
    unfold add_transaction in H. cbn in H. injection H as <- _. auto.
Qed.

Theorem C93_transfer_answers_original_partial e s a s' i n :
  step e (OTransfer [a]) s = (s', ABatch [Ok i]) ->
  snd (step (knows n e) (OTransfer [a]) s) = ABatch [Ok n].
Proof.
  cbn [step]. unfold icrc7_transfer. cbn [e_caller e_now knows].
  destruct (usize_try _) as [mx|]; [|discriminate].
  destruct (_ && _); [discriminate|]. destruct (bool_decide _); [discriminate|].
  unfold take_n. destruct (N.to_nat _) as [|k]; cbn [firstn run_items ans_batch]; [discriminate|].
  rewrite firstn_nil. cbn [run_items]. unfold transfer_nft. cbn [e_caller e_now knows].
  destruct (guard_sliding_window _ _ _) as [x1 pass].
  destruct pass; cbn [negb]; [|discriminate].
  destruct (tokens _ !! _); [|discriminate].
  destruct (check_memo _ _) as [[|]|]; [|discriminate..].
  destruct (_ || _); [discriminate|].
  destruct (u64_setting _ _); [|discriminate]. destruct (_ <? _); [discriminate|].
  destruct (u64_setting _ _); [|discriminate]. destruct (_ <? _); [discriminate|].
  reflexivity.
Qed.

Example C93_case :
  snd (step (from_ alice 3000000000) (OTransfer [xfer carol 1]) demo2) = ABatch [Ok 5] /\
  snd (step (knows 3 (from_ alice 3000000000)) (OTransfer [xfer carol 1]) demo2) = ABatch [Ok 3] /\
  owner_of (fst (step (knows 3 (from_ alice 3000000000)) (OTransfer [xfer carol 1]) demo2)) 1 = Some (acct alice).
Proof. vm_compute. auto. Qed.

Print Assumptions C93_duplicates_reported_refuted.
Print Assumptions C93_transfer_from_duplicates_refuted.
Print Assumptions C93_duplicates_not_repeated_partial.
Print Assumptions C93_transfer_answers_original_partial.
