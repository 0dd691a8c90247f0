(** C20-C28: approvals. *)
From Verif Require Import Base ModelPrincipal ModelState ModelIcrc7 ModelIcrc37 ModelManagement ModelLifecycle
  ModelQueries ModelStep ProofsItems ProofsManage ProofsMicro Spec ProofsCore ProofsOwner ProofsApprovals ProofsQueries
  Scenario.

(** ** C20 *)

(** The approvals of [t] change only through an approve or revoke of the account owning [t], or a transfer_from of [t]
    (see C04 for who can do that). *)
Theorem C20_only_owner_approves e o s t sp :
  token_approval (fst (step e o s)) t sp <> token_approval s t sp ->
  (exists l a ow, o = OApproveTokens l /\ a ∈ l /\ ap_tid a = t /\ owner_of s t = Some ow /\
     akey ow = akey (mkAcc (e_caller e) (ai_from_sub (ap_info a)))) \/
  (exists l a ow, o = ORevokeTokens l /\ a ∈ l /\ rv_tid a = t /\ owner_of s t = Some ow /\
     akey ow = akey (mkAcc (e_caller e) (rv_from_sub a))) \/
  (exists l a, o = OTransferFrom l /\ a ∈ l /\ tf_tid a = t).
Proof.
  intros H. apply (step_tok_cause e o s t). intros E. apply H. unfold token_approval. rewrite E. reflexivity.
Qed.
Print Assumptions C20_only_owner_approves.

(** transfer_from only ever removes approvals. *)
Theorem C20_transfer_from_adds_none e l s t sp ap :
  (token_approval (fst (step e (OTransferFrom l) s)) t sp = Some ap -> token_approval s t sp = Some ap) /\
  (forall ow, collection_approval (fst (step e (OTransferFrom l) s)) ow sp = Some ap ->
              collection_approval s ow sp = Some ap).
Proof.
  assert (A : appr_sub s (fst (step e (OTransferFrom l) s))).
  { apply (step_rel (fun _ => True) appr_sub); auto using appr_sub_refl.
    - intros; eapply appr_sub_trans; eauto.
    - intros ? ? _ H. split; [exact I|]. eapply micro_appr_sub; eauto. }
  destruct A as [A1 A2]. unfold token_approval, collection_approval. split.
  - destruct (tok_appr (fst _) !! t) as [m'|] eqn:E; [|discriminate]. destruct (A1 _ _ E) as (m & -> & Sub).
    destruct (m' !! akey sp) as [x|] eqn:Ex; [|discriminate]. rewrite (lookup_weaken _ _ _ _ Ex Sub). auto.
  - intros ow. destruct (col_appr (fst _) !! akey ow) as [m'|] eqn:E; [|discriminate].
    destruct (A2 _ _ E) as (m & -> & Sub).
    destruct (m' !! akey sp) as [x|] eqn:Ex; [|discriminate]. rewrite (lookup_weaken _ _ _ _ Ex Sub). auto.
Qed.
Print Assumptions C20_transfer_from_adds_none.

(** Collection approvals of an account change only through calls of that very account's principal, or a transfer_from. *)
Theorem C20_only_owner_approves_collection e o s ow sp :
  collection_approval (fst (step e o s)) ow sp <> collection_approval s ow sp ->
  (exists l a, o = OApproveCollection l /\ a ∈ l /\ akey ow = akey (mkAcc (e_caller e) (ai_from_sub a))) \/
  (exists l a, o = ORevokeCollection l /\ a ∈ l /\ akey ow = akey (mkAcc (e_caller e) None)) \/
  (exists l a, o = OTransferFrom l /\ a ∈ l).
Proof.
  intros H. apply (step_col_cause e o s (akey ow)). intros E. apply H. unfold collection_approval. rewrite E. reflexivity.
Qed.
Print Assumptions C20_only_owner_approves_collection.

(** Every approval ever stored was given, as it is stored, by an accepted item of an approve call of the account that
    owned the token at that moment. *)
Theorem C20_approval_provenance caller url_ok a0 s0 h t sp ap :
  init caller url_ok a0 = Some s0 -> token_approval (run h s0) t sp = Some ap ->
  exists ev l rs j a i ow, ev ∈ trace h s0 /\ ev_op ev = OApproveTokens l /\ ev_ans ev = ABatch rs /\
    l !! j = Some a /\ rs !! j = Some (Ok i) /\ ap_tid a = t /\ akey (ai_spender (ap_info a)) = akey sp /\
    ap = mkAppr (ai_spender (ap_info a)) (mkAcc (e_caller (ev_env ev)) (ai_from_sub (ap_info a)))
                (ai_expires (ap_info a)) (e_now (ev_env ev)) (ai_memo (ap_info a)) /\
    owner_of (ev_before ev) t = Some ow /\ akey ow = akey (a_from ap).
Proof.
  intros Hi H. unfold token_approval in H.
  destruct (tok_appr (run h s0) !! t) as [m|] eqn:E; [|discriminate].
  destruct (m !! akey sp) as [[ka ap']|] eqn:Em; [|discriminate]. injection H as ->.
  destruct (trace_tok_source _ _ _ _ _ _ _ E Em) as [(m0 & ka0 & E1 & _)|(ev & l & rs & E1 & E2 & E3 & S)].
  - apply init_inv in Hi. destruct Hi as (_ & _ & _ & _ & ->). simpl in E1. rewrite lookup_empty in E1. discriminate.
  - destruct S as (j & a & i & ow & S). exists ev, l, rs, j, a, i, ow. auto.
Qed.
Print Assumptions C20_approval_provenance.

Example C20_example :
  token_approval (fst (step (from_ alice 3000000000) (OApproveTokens [appr 2 carol 3000000000 None]) demo2)) 2 (acct carol)
    = Some (mkAppr (acct carol) (acct alice) None (t0 + 3000000000) None) /\
  token_approval demo2 2 (acct carol) = None /\
  snd (step (from_ bob 3000000000) (OApproveTokens [appr 2 carol 3000000000 None]) demo2) = ABatch [Err EUnauthorized] /\
  token_approval (run demo2_h demo0) 1 (acct bob) = Some (mkAppr (acct bob) (acct alice) None (t0 + 1000000000) None) /\
  init admin (fun _ => true) demo_args = Some demo0 /\
  collection_approval demo2 (acct alice) (acct carol)
    = Some (mkAppr (acct carol) (acct alice) (Some (t0 + 9000000000)) (t0 + 2000000000) None) /\
  collection_approval demo1 (acct alice) (acct carol) = None.
Proof. splits; try apply demo0_init; vm_compute; reflexivity. Qed.

(** ** C21 *)

(** After an accepted approval and any history of messages that do not name the token, a transfer_from by the spender before
    the expiry is authorized: it is carried out if the log accepts it, unless it is refused by the rate limiter, for its
    creation time, or for its recipient. *)
Theorem C21_approval_usable e a s s1 i h e2 b s3 r :
  reachable s -> step e (OApproveTokens [a]) s = (s1, ABatch [Ok i]) ->
  Forall (fun x => ~ mentions (ap_tid a) (snd x)) h ->
  e_caller e2 = acc_owner (ai_spender (ap_info a)) -> tf_spender_sub b = acc_sub (ai_spender (ap_info a)) ->
  tf_tid b = ap_tid a -> tf_from b = mkAcc (e_caller e) (ai_from_sub (ap_info a)) ->
  match ai_expires (ap_info a) with Some x => e_now e2 < x | None => True end ->
  step e2 (OTransferFrom [b]) (run h s1) = (s3, ABatch [r]) ->
  limited r = true \/
  (tf_created b <> None /\ (r = Err ETooOld \/ exists t, r = Err (ECreatedInFuture t))) \/
  (r = Err EInvalidRecipient /\ (akey (tf_from b) = akey (tf_to b) \/ akey (tf_to b) = akey (mkAcc anonymous None))) \/
  exists n x, match e_log e2 n x with
              | LOk j => r = Ok j /\ owner_of s3 (ap_tid a) = Some (tf_to b)
              | _ => exists er, r = Err er
              end.
Proof.
  intros Hr Ha Hh Hc Hsub Ht Hf Hx Hs.
  assert (W1 : wf s1). { pose proof (step_wf e (OApproveTokens [a]) s (reachable_wf _ Hr)) as W. rewrite Ha in W. exact W. }
  pose proof (approve_ok_effect _ _ _ _ _ Ha) as ((ow & Ho & Hk) & Tk & _ & Ap).
  rewrite owner_of_tokens in Ho. destruct (tokens s !! ap_tid a) as [tok|] eqn:T; [|discriminate].
  simpl in Ho. injection Ho as Ho.
  destruct (run_unmentioned h s1 (ap_tid a) tok W1 Hh) as [T2 A2]; [rewrite Tk; exact T|].
  assert (W2 : wf (run h s1)) by (apply run_wf; exact W1).
  destruct (transfer_from_outcome _ _ _ _ _ tok Hs) as [O|[O|[O|[O|[[O NM]|[_ O]]]]]]; [rewrite Ht; exact T2|..].
  - auto.
  - right; left. split; [|auto]. apply step_transfer_from_single in Hs.
    unfold transfer_from in Hs. destruct (guard_sliding_window _ _ _) as [sg pass].
    intros X. rewrite X in Hs. simpl in Hs. destruct pass; simpl in Hs; [|congruence].
    rewrite O in Hs. destruct (tokens sg !! _); [|congruence]. destruct (acc_eqb _ _); [congruence|].
    destruct (acc_eqb _ _); [congruence|]. destruct (check_token_approval _ _ _ _) as [? ?].
    destruct (check_collection_approval _ _ _ _) as [? ?]. destruct (_ || _); [congruence|].
    destruct (add_transaction _ _ _) as [? ans]. unfold transfer_from_log_err in Hs.
    destruct ans; try congruence. destruct (str_contains _ _); congruence.
  - right; left. split; [|auto]. destruct O as [t O]. apply step_transfer_from_single in Hs.
    unfold transfer_from in Hs. destruct (guard_sliding_window _ _ _) as [sg pass].
    intros X. rewrite X in Hs. simpl in Hs. destruct pass; simpl in Hs; [|congruence].
    rewrite O in Hs. destruct (tokens sg !! _); [|congruence]. destruct (acc_eqb _ _); [congruence|].
    destruct (acc_eqb _ _); [congruence|]. destruct (check_token_approval _ _ _ _) as [? ?].
    destruct (check_collection_approval _ _ _ _) as [? ?]. destruct (_ || _); [congruence|].
    destruct (add_transaction _ _ _) as [? ans]. unfold transfer_from_log_err in Hs.
    destruct ans; try congruence. destruct (str_contains _ _); congruence.
  - auto.
  - exfalso. apply NM. rewrite Hf, Ho. split; [exact Hk|]. right; left.
    unfold token_approved. rewrite Ht, A2. rewrite Hc, Hsub.
    destruct (ai_spender (ap_info a)) as [p q] eqn:Esp. simpl.
    specialize (Ap (ap_tid a) (mkAcc p q)). rewrite decide_True in Ap by auto.
    unfold token_approval in Ap. destruct (tok_appr s1 !! ap_tid a) as [m|] eqn:Em; [|discriminate].
    destruct (m !! akey (mkAcc p q)) as [[ka ap]|] eqn:Ek; [|discriminate]. simpl in Ap. injection Ap as Ap.
    exists m, ka, ap. split; [reflexivity|]. split; [exact Ek|]. rewrite Ap. simpl. exact Hx.
  - right; right; right. destruct O as (n & x & O). exists n, x. destruct (e_log e2 n x); try exact O.
    split; [exact O|]. subst r. destruct (transfer_from_ok_effect _ _ _ _ _ W2 Hs) as (ow' & _ & _ & E & _).
    rewrite <- owners_lookup, E, Ht, lookup_insert. reflexivity.
Qed.
Print Assumptions C21_approval_usable.

(** bob's approval on token 2 survives other traffic (including a transfer of token 1) and is used just before it expires. *)
Example C21_example :
  let a := appr 2 bob 3000000000 (Some (t0 + 9000000000)) in
  let s1 := fst (step (from_ alice 3000000000) (OApproveTokens [a]) demo2) in
  let h := [(from_ alice 4000000000, OTransfer [xfer carol 1]); (from_ admin 5000000000, mint3); (from_ admin 0, OUpgrade)] in
  let e2 := from_ bob 8999999999 in
  let b := tfrom alice bob 2 in
  reachable demo2 /\ step (from_ alice 3000000000) (OApproveTokens [a]) demo2 = (s1, ABatch [Ok 5]) /\
  Forall (fun x => ~ mentions (ap_tid a) (snd x)) h /\
  e_caller e2 = acc_owner (ai_spender (ap_info a)) /\ tf_spender_sub b = acc_sub (ai_spender (ap_info a)) /\
  tf_tid b = ap_tid a /\ tf_from b = mkAcc alice (ai_from_sub (ap_info a)) /\
  match ai_expires (ap_info a) with Some x => e_now e2 < x | None => True end /\
  snd (step e2 (OTransferFrom [b]) (run h s1)) = ABatch [Ok 10].
Proof.
  intros a s1 h e2 b. split; [apply demo_reachable|].
  split; [unfold s1; refine (snd_pair _ _ _); vm_compute; reflexivity|]. split.
  { repeat constructor; simpl; intros X; try destruct X as (x & X & Y); auto.
    apply elem_of_list_singleton in X. subst x. discriminate. }
  splits; vm_compute; reflexivity.
Qed.

(** ** C22 *)

(** A token does not change hands unless its owner's principal asks for it, or a caller whose account holds an approval
    whose expiry lies in the future. *)
Theorem C22_expired_cannot_move e o s t ow :
  reachable s -> owner_of s t = Some ow -> acc_owner ow <> e_caller e ->
  (forall sub ap, token_approval s t (mkAcc (e_caller e) sub) = Some ap ->
     exists x, a_expires ap = Some x /\ x <= e_now e) ->
  (forall sub ap, collection_approval s ow (mkAcc (e_caller e) sub) = Some ap ->
     exists x, a_expires ap = Some x /\ x <= e_now e) ->
  owner_of (fst (step e o s)) t = Some ow.
Proof.
  intros Hr Ho Hc H1 H2. destruct (decide (owner_of (fst (step e o s)) t = Some ow)) as [E|Hn]; [exact E|].
  exfalso. destruct (step_entitled e o s t ow (reachable_wf _ Hr) Ho Hn) as [E|(l & a & _ & _ & _ & E)]; [congruence|].
  destruct E as [(m & k & ap & E1 & E2 & E3)|(m & k & ap & E1 & E2 & E3)].
  - destruct (H1 (tf_spender_sub a) ap) as (x & X1 & X2); [unfold token_approval; rewrite E1, E2; reflexivity|].
    rewrite X1 in E3. lia.
  - destruct (H2 (tf_spender_sub a) ap) as (x & X1 & X2); [unfold collection_approval; rewrite E1, E2; reflexivity|].
    rewrite X1 in E3. lia.
Qed.
Print Assumptions C22_expired_cannot_move.

(** What an item that reaches the authorization check is judged by. *)
Theorem C22_unauthorized_iff e a s s' r ow :
  step e (OTransferFrom [a]) s = (s', ABatch [r]) -> owner_of s (tf_tid a) = Some ow ->
  limited r = true \/ r = Err ETooOld \/ (exists t, r = Err (ECreatedInFuture t)) \/ r = Err EInvalidRecipient \/
  (r = Err EUnauthorized <->
     ~ (akey ow = akey (tf_from a) /\ may_move s (tf_tid a) ow (mkAcc (e_caller e) (tf_spender_sub a)) (e_now e))).
Proof.
  intros H Ho. rewrite owner_of_tokens in Ho. destruct (tokens s !! tf_tid a) as [nft|] eqn:T; [|discriminate].
  simpl in Ho. injection Ho as <-.
  destruct (transfer_from_outcome _ _ _ _ _ nft H T) as [O|[O|[O|[O|[O|O]]]]]; auto; try tauto.
  right; right; right; right. split; [|tauto]. intros ->. exfalso.
  destruct O as [Au _]. apply step_transfer_from_single in H. unfold transfer_from in H.
  destruct (guard_sliding_window (e_now e) (tf_tid a) s) as [s1 pass] eqn:G.
  pose proof (guard_quiet _ _ _ _ _ G) as Q1. destruct pass; simpl in H; [|discriminate].
  destruct (verify_opt_timing _ _ _); [|discriminate..]. rewrite (quiet_tokens _ _ Q1), T in H.
  destruct (acc_eqb (tf_from a) _); [discriminate|]. destruct (acc_eqb (tf_to a) _); [discriminate|].
  rewrite check_token_approval_eq in H. rewrite check_collection_approval_eq in H.
  cbn [set_tok_appr tok_appr col_appr] in H. rewrite (quiet_tok_appr _ _ Q1), (quiet_col_appr _ _ Q1) in H.
  destruct Au as [E1 E2]. rewrite (proj2 (acc_eqb_true _ _) E1) in H. simpl in H.
  match type of H with (if ?b then _ else _) = _ => assert (b = false) as Bf end.
  { destruct E2 as [E2|[E2|E2]].
    - rewrite E1 in E2. rewrite (proj2 (acc_eqb_true _ _) E2). reflexivity.
    - apply has_valid_iff in E2. rewrite E2. simpl. rewrite andb_false_r. reflexivity.
    - apply has_valid_iff in E2. rewrite E2. simpl. rewrite andb_false_r. reflexivity. }
  rewrite Bf in H. destruct (add_transaction _ _ _) as [s2 ans]. unfold transfer_from_log_err in H.
  destruct ans; try discriminate. destruct (str_contains _ _); discriminate.
Qed.
Print Assumptions C22_unauthorized_iff.

(** After a refusal for lack of authorization, no expired approval of that spender is left. *)
Theorem C22_expired_dropped e a s s' ow :
  step e (OTransferFrom [a]) s = (s', ABatch [Err EUnauthorized]) -> owner_of s (tf_tid a) = Some ow ->
  let sp := mkAcc (e_caller e) (tf_spender_sub a) in
  (forall ap x, token_approval s' (tf_tid a) sp = Some ap -> a_expires ap = Some x -> e_now e < x) /\
  (forall ap x, collection_approval s' ow sp = Some ap -> a_expires ap = Some x -> e_now e < x).
Proof.
  intros H Ho. destruct (unauthorized_drops _ _ _ _ H) as (nft & T & D1 & D2).
  rewrite owner_of_tokens, T in Ho. injection Ho as <-.
  split; intros ap x X1 X2; [specialize (D1 _ X1)|specialize (D2 _ X1)];
    unfold unexpired in *; rewrite X2 in *; apply N.ltb_lt; assumption.
Qed.
Print Assumptions C22_expired_dropped.

(** An approval is in force until exactly the time that was asked for: of a token, and of a collection. *)
Theorem C22_expiry_as_given e a s s' i x now :
  step e (OApproveTokens [a]) s = (s', ABatch [Ok i]) -> ai_expires (ap_info a) = Some x ->
  token_approved s' (ap_tid a) (ai_spender (ap_info a)) now <-> now < x.
Proof.
  intros H X. destruct (approve_ok_effect _ _ _ _ _ H) as (_ & _ & _ & E). specialize (E (ap_tid a) (ai_spender (ap_info a))).
  destruct (decide _) as [_|N]; [|destruct N; auto]. rewrite X in E. unfold token_approval in E. unfold token_approved, approved_in.
  destruct (tok_appr s' !! ap_tid a) as [m|]; [|discriminate].
  destruct (m !! akey (ai_spender (ap_info a))) as [[k ap]|] eqn:L; [|discriminate]. cbn in E. injection E as ->. split.
  - intros (m' & k' & ap' & [= <-] & L' & W). rewrite L in L'. injection L' as <- <-. exact W.
  - intros W. eexists m, k, _. split; [reflexivity|]. split; [exact L|]. exact W.
Qed.
Print Assumptions C22_expiry_as_given.
Theorem C22_collection_expiry_as_given e a s s' i x now :
  step e (OApproveCollection [a]) s = (s', ABatch [Ok i]) -> ai_expires a = Some x ->
  collection_approved s' (mkAcc (e_caller e) (ai_from_sub a)) (ai_spender a) now <-> now < x.
Proof.
  cbn [step]. unfold ans_batch, icrc37_approve_collection. cbn [run_items].
  destruct (approve_collection e s a) as [[s1 b]|] eqn:F; [|discriminate]. intros [= <- ->] X.
  destruct (approve_collection_inv _ _ _ _ _ F) as [[_ [er Y]]|(s2 & j & _ & Q & _ & _ & _ & _ & ->)]; [discriminate|].
  unfold collection_approved, approved_in. cbn [col_appr set_col_appr]. rewrite lookup_insert.
  assert (E : forall mm : gmap acckey (account * approval), exists k,
    appmap_insert (ai_spender a) (new_approval a (mkAcc (e_caller e) (ai_from_sub a)) (e_now e)) mm !! akey (ai_spender a) =
      Some (k, new_approval a (mkAcc (e_caller e) (ai_from_sub a)) (e_now e))).
  { intros mm. unfold appmap_insert. destruct (mm !! akey (ai_spender a)) as [[? ?]|]; rewrite lookup_insert; eauto. }
  destruct (E (default ∅ (col_appr s !! akey (mkAcc (e_caller e) (ai_from_sub a))))) as [k L]. split.
  - intros (m' & k' & ap' & [= <-] & L' & W). rewrite L in L'. injection L' as <- <-. unfold new_approval in W. cbn in W.
    rewrite X in W. exact W.
  - intros W. eexists _, k, _. split; [reflexivity|]. split; [exact L|]. cbn. rewrite X. exact W.
Qed.
Print Assumptions C22_collection_expiry_as_given.
Example C22_expiry_example :
  snd (step (from_ alice 3000000000) (OApproveTokens [appr 1 carol 3000000000 (Some (t0 + 5000000000))]) demo2) = ABatch [Ok 5] /\
  snd (step (from_ alice 3000000000) (OApproveCollection [info bob 3000000000 (Some (t0 + 5000000000))]) demo2) = ABatch [Ok 5].
Proof. split; vm_compute; reflexivity. Qed.

(** carol's collection approval expires at +9 s: refused at that moment, and gone afterwards. *)
Example C22_example :
  let r := step (from_ carol 9000000000) (OTransferFrom [tfrom alice carol 2]) demo2 in
  reachable demo2 /\ owner_of demo2 2 = Some (acct alice) /\ snd r = ABatch [Err EUnauthorized] /\
  is_Some (collection_approval demo2 (acct alice) (acct carol)) /\
  collection_approval (fst r) (acct alice) (acct carol) = None /\
  snd (step (from_ carol 8999999999) (OTransferFrom [tfrom alice carol 2]) demo2) = ABatch [Ok 5].
Proof. splits; try apply demo_reachable; try (vm_compute; reflexivity). vm_compute. eexists. reflexivity. Qed.

(** ** C23 *)
Theorem C23_revoke_effective e a s s' i :
  step e (ORevokeTokens [a]) s = (s', ABatch [Ok i]) ->
  (forall sp, concerns (rv_spender a) sp -> token_approval s' (rv_tid a) sp = None) /\
  (forall sp, ~ concerns (rv_spender a) sp -> token_approval s' (rv_tid a) sp = token_approval s (rv_tid a) sp) /\
  (forall t sp, t <> rv_tid a -> token_approval s' t sp = token_approval s t sp) /\
  (forall ow sp, collection_approval s' ow sp = collection_approval s ow sp) /\
  owners s' = owners s.
Proof.
  intros H. destruct (revoke_ok_effect _ _ _ _ _ H) as (R & T & C). splits.
  - intros sp Hs. rewrite R, decide_True by auto. reflexivity.
  - intros sp Hs. rewrite R, decide_False by tauto. reflexivity.
  - intros t sp Ht. rewrite R, decide_False by tauto. reflexivity.
  - intros. unfold collection_approval. rewrite C. reflexivity.
  - unfold owners. rewrite T. reflexivity.
Qed.
Print Assumptions C23_revoke_effective.

(** In a batch, too: nothing later in the batch brings a revoked approval back. *)
Theorem C23_revoke_batch e l s s' rs k a i sp :
  step e (ORevokeTokens l) s = (s', ABatch rs) -> l !! k = Some a -> rs !! k = Some (Ok i) ->
  concerns (rv_spender a) sp -> token_approval s' (rv_tid a) sp = None.
Proof.
  simpl. unfold icrc37_revoke_token_approvals. destruct l as [|a0 l0] eqn:El; [discriminate|]. rewrite <- El in *. clear El.
  destruct (guard_sliding_window _ _ _) as [s1 pass]. destruct pass; cbn [negb]; [|discriminate].
  destruct (run_items _ _ _) as [[s2 rs2]|] eqn:R; [|discriminate]. intros [= -> ->] Hk Hr Hc.
  rewrite take_n_take in R. set (n := N.to_nat _) in R.
  pose proof (run_items_length _ _ _ _ _ R) as Len.
  assert (Hkn : (k < n)%nat).
  { apply lookup_lt_Some in Hr. rewrite Len, take_length in Hr. lia. }
  rewrite <- (lookup_take l n k Hkn) in Hk. revert R Hk Hr. generalize (take n l). clear Len Hkn l n. intros l R Hk Hr.
  revert s1 rs k R Hk Hr. induction l as [|b l IH]; intros s1 rs k R Hk Hr; [rewrite lookup_nil in Hk; discriminate|].
  simpl in R. destruct (revoke_token_approvals e s1 b) as [[s2 r]|] eqn:F; [|discriminate].
  destruct (run_items _ s2 l) as [[s3 rs3]|] eqn:G; [|discriminate]. injection R as -> <-.
  destruct k as [|k]; simpl in *; [|eapply IH; eauto].
  injection Hk as ->. injection Hr as ->.
  assert (E : token_approval s2 (rv_tid a) sp = None).
  { destruct (revoke_token_inv _ _ _ _ _ F) as [[_ [er X]]|(s4 & j & ow & m & _ & Q & _ & _ & T & _ & ->)]; [discriminate|].
    unfold token_approval. simpl. rewrite lookup_insert, revoke_from_lookup.
    destruct (rv_spender a); simpl in Hc; [rewrite decide_True by exact Hc|]; reflexivity. }
  clear -E G. revert s2 rs3 E G. induction l as [|b l IH]; intros s2 rs3 E G; simpl in G.
  - injection G as <- <-. exact E.
  - destruct (revoke_token_approvals e s2 b) as [[s4 r]|] eqn:F; [|discriminate].
    destruct (run_items _ s4 l) as [[s5 rs5]|] eqn:G2; [|discriminate]. injection G as -> <-.
    eapply IH; [|exact G2].
    destruct (revoke_token_inv _ _ _ _ _ F) as [[Q _]|(s6 & j & ow & m & _ & Q & _ & _ & T & _ & ->)]; open_quiet.
    + exact E.
    + unfold token_approval in *. simpl. destruct (decide (rv_tid b = rv_tid a)) as [Eb|Hb].
      * rewrite Eb in *. rewrite lookup_insert, revoke_from_lookup. rewrite T in E.
        destruct (rv_spender b); [|reflexivity]. destruct (decide _); [reflexivity|exact E].
      * rewrite lookup_insert_ne by exact Hb. exact E.
Qed.
Print Assumptions C23_revoke_batch.

Example C23_example :
  let s := fst (step (from_ alice 3000000000) (OApproveTokens [appr 1 carol 3000000000 None]) demo2) in
  let r sp := step (from_ alice 4000000000) (ORevokeTokens [mkRevokeArg sp None 1 None None]) s in
  snd (r (Some (acct bob))) = ABatch [Ok 6] /\
  token_approval (fst (r (Some (acct bob)))) 1 (acct bob) = None /\
  is_Some (token_approval (fst (r (Some (acct bob)))) 1 (acct carol)) /\
  snd (r None) = ABatch [Ok 6] /\ token_approval (fst (r None)) 1 (acct carol) = None /\
  concerns (Some (acct bob)) (mkAcc bob (Some (repeat 0 32%nat))) /\ ~ concerns (Some (acct bob)) (acct carol).
Proof. splits; try (vm_compute; reflexivity); [vm_compute; eexists; reflexivity|vm_compute; discriminate]. Qed.

(** ** C24 *)
Theorem C24_approvals_bounded caller url_ok a s0 h t ow :
  init caller url_ok a = Some s0 ->
  let mx := match i_max_appr a with Some n => if n <? 2 ^ 32 then n else 10 | None => 10 end in
  N.of_nat (length (approvals_on (run h s0) t)) <= mx /\ N.of_nat (length (approvals_of (run h s0) ow)) <= mx.
Proof.
  intros Hi mx. destruct (run_appr_bound _ _ _ _ h Hi) as (_ & B1 & B2).
  assert (Em : usize_limit (i_max_appr a) = mx).
  { unfold usize_limit, mx, usize_try, default_max_appr. change (2 ^ 32) with two32.
    destruct (i_max_appr a) as [n|]; simpl; [destruct (n <? two32)|]; reflexivity. }
  rewrite Em in *. unfold approvals_on, approvals_of. split.
  - destruct (tok_appr (run h s0) !! t) as [m|] eqn:E; [|simpl; lia]. rewrite map_length. apply (B1 _ _ E).
  - destruct (col_appr (run h s0) !! akey ow) as [m|] eqn:E; [|simpl; lia]. rewrite map_length. apply (B2 _ _ E).
Qed.
Print Assumptions C24_approvals_bounded.

(** A maximum of 1: the second approval is refused. *)
Definition one_appr_args : init_args :=
  mkInit false {[admin := all_permissions]} None "SYM" "Name" None (Some 100) None None None None (Some 10) None
         None None None [] (Some 1) None.
Example C24_example :
  let s := run demo1_h (demo_init one_appr_args) in
  init admin (fun _ => true) one_appr_args = Some (demo_init one_appr_args) /\
  snd (step (from_ alice 0) (OApproveTokens [appr 1 bob 0 None; appr 1 carol 0 None]) s)
    = ABatch [Ok 3; Err (EGeneric 1 "Maximum approvals per token exceeded")].
Proof. splits; [reflexivity|vm_compute; reflexivity]. Qed.

(** ** C25 *)

(** Refuted: alice gave an approval from subaccount 7 and revokes it naming that subaccount; the call is accepted (it
    concerns the default subaccount), the approval stays. *)
Definition sub7 : bytes := repeat 0 31%nat ++ [7].
Theorem C25_revoke_collection_refuted :
  exists s e a sp, reachable s /\ rc_spender a = Some sp /\ rc_from_sub a = Some sub7 /\
    snd (step e (ORevokeCollection [a]) s) = ABatch [Ok 6] /\
    collection_approved s (mkAcc (e_caller e) (rc_from_sub a)) sp (e_now e) /\
    collection_approved (fst (step e (ORevokeCollection [a]) s)) (mkAcc (e_caller e) (rc_from_sub a)) sp (e_now e).
Proof.
  exists (run (demo2_h ++ [(from_ alice 3000000000,
            OApproveCollection [mkInfo (acct carol) (Some sub7) None None (t0 + 3000000000)])]) demo0),
    (from_ alice 4000000000), (mkRevokeCollArg (Some (acct carol)) (Some sub7) None None), (acct carol).
  split; [apply demo_reachable|]. split; [reflexivity|]. split; [reflexivity|].
  split; [vm_compute; reflexivity|].
  split; apply has_valid_iff; vm_compute; reflexivity.
Qed.
Print Assumptions C25_revoke_collection_refuted.

(** Partial: it holds for approvals given from the default subaccount. Missing: other subaccounts, whose approvals no call
    can revoke. *)
Theorem C25_revoke_collection_partial e a s s' i :
  step e (ORevokeCollection [a]) s = (s', ABatch [Ok i]) ->
  let ow := mkAcc (e_caller e) (rc_from_sub a) in
  (akey ow = akey (mkAcc (e_caller e) None) ->
     (forall sp, concerns (rc_spender a) sp -> collection_approval s' ow sp = None) /\
     (forall sp, ~ concerns (rc_spender a) sp -> collection_approval s' ow sp = collection_approval s ow sp)) /\
  (forall ow' sp, akey ow' <> akey (mkAcc (e_caller e) None) ->
     collection_approval s' ow' sp = collection_approval s ow' sp) /\
  (forall t sp, token_approval s' t sp = token_approval s t sp) /\ owners s' = owners s.
Proof.
  intros H ow. destruct (revoke_coll_ok_effect _ _ _ _ _ H) as (R & T & C). splits.
  - intros E. split; intros sp Hs; rewrite R; [rewrite decide_True by auto|rewrite decide_False by tauto]; reflexivity.
  - intros ow' sp Hn. rewrite R, decide_False by tauto. reflexivity.
  - intros. unfold token_approval. rewrite C. reflexivity.
  - unfold owners. rewrite T. reflexivity.
Qed.
Print Assumptions C25_revoke_collection_partial.

Example C25_example :
  let r := step (from_ alice 3000000000) (ORevokeCollection [mkRevokeCollArg (Some (acct carol)) None None None]) demo2 in
  snd r = ABatch [Ok 5] /\ is_Some (collection_approval demo2 (acct alice) (acct carol)) /\
  collection_approval (fst r) (acct alice) (acct carol) = None.
Proof. splits; try (vm_compute; reflexivity). vm_compute. eexists. reflexivity. Qed.

(** ** C26 *)

(** Refuted: carol, approved for alice's collection, moves token 1; the approval for token 2, still alice's, is gone. *)
Theorem C26_collection_kept_refuted :
  exists s e t1 t2 sp, reachable s /\ t1 <> t2 /\ e_caller e = acc_owner sp /\
    owner_of s t1 = Some (acct alice) /\ owner_of s t2 = Some (acct alice) /\
    collection_approved s (acct alice) sp (e_now e) /\
    let s1 := fst (step e (OTransferFrom [tfrom alice bob t1]) s) in
    snd (step e (OTransferFrom [tfrom alice bob t1]) s) = ABatch [Ok 5] /\
    owner_of s1 t2 = Some (acct alice) /\ collection_approval s1 (acct alice) sp = None.
Proof.
  exists demo2, (from_ carol 3000000000), 1, 2, (acct carol).
  split; [apply demo_reachable|]. split; [discriminate|]. split; [reflexivity|].
  split; [vm_compute; reflexivity|]. split; [vm_compute; reflexivity|].
  split; [apply has_valid_iff; vm_compute; reflexivity|]. splits; vm_compute; reflexivity.
Qed.
Print Assumptions C26_collection_kept_refuted.

(** What happens: all collection approvals of the sending account go, every other account keeps its own.
    Missing: the sender's. *)
Theorem C26_other_collections_kept_partial e a s s' i :
  step e (OTransferFrom [a]) s = (s', ABatch [Ok i]) ->
  (forall ow sp, akey ow = akey (tf_from a) -> collection_approval s' ow sp = None) /\
  (forall ow sp, akey ow <> akey (tf_from a) -> collection_approval s' ow sp = collection_approval s ow sp) /\
  (forall t sp, t <> tf_tid a -> token_approval s' t sp = token_approval s t sp).
Proof.
  intros H. destruct (transfer_from_ok_approvals _ _ _ _ _ H) as [T C]. splits.
  - intros ow sp E. rewrite C, decide_True by exact E. reflexivity.
  - intros ow sp E. rewrite C, decide_False by exact E. reflexivity.
  - intros t sp E. rewrite T, decide_False by exact E. reflexivity.
Qed.
Print Assumptions C26_other_collections_kept_partial.

Example C26_example :
  snd (step (from_ carol 3000000000) (OTransferFrom [tfrom alice bob 1]) demo2) = ABatch [Ok 5] /\
  token_approval demo2 1 (acct bob) <> None.
Proof. splits; [vm_compute; reflexivity|vm_compute; discriminate]. Qed.

(** ** C27 *)

(** Refuted in both directions: carol may move token 2 by alice's collection approval but is reported as not approved;
    alice's account with another subaccount may not, but is reported as approved. *)
Theorem C27_is_approved_refuted :
  (exists s now t sp from_sub, reachable s /\ owner_of s t = Some (acct alice) /\
     may_move s t (acct alice) sp now /\ is_approved s now (mkIsApproved sp from_sub t) = false /\
     from_sub = acc_sub sp) /\
  (exists s e t from_sub, reachable s /\ owner_of s t = Some (acct alice) /\
     is_approved s (e_now e) (mkIsApproved (mkAcc (e_caller e) (Some sub7)) from_sub t) = true /\
     snd (step e (OTransferFrom [mkTransferFromArg (Some sub7) (acct alice) (acct bob) t None None]) s)
       = ABatch [Err EUnauthorized]).
Proof.
  split.
  - exists demo2, (t0 + 3000000000), 2, (acct carol), None. split; [apply demo_reachable|].
    split; [vm_compute; reflexivity|]. split; [|split; [vm_compute; reflexivity|reflexivity]].
    right; right. apply has_valid_iff. vm_compute. reflexivity.
  - exists demo2, (from_ alice 3000000000), 2, None. split; [apply demo_reachable|].
    split; [vm_compute; reflexivity|]. split; vm_compute; reflexivity.
Qed.
Print Assumptions C27_is_approved_refuted.

(** Partial: with the spender's own subaccount as from_subaccount, the answer is right about ownership and token
    approvals. Missing: collection approvals given by the owner, which are never looked at. *)
Theorem C27_is_approved_partial s now a ow :
  reachable s -> owner_of s (ia_tid a) = Some ow -> ia_from_sub a = acc_sub (ia_spender a) ->
  collection_approval s (ia_spender a) (ia_spender a) = None ->
  (is_approved s now a = true <->
     akey (ia_spender a) = akey ow \/ token_approved s (ia_tid a) (ia_spender a) now) /\
  (~ collection_approved s ow (ia_spender a) now ->
     is_approved s now a = true <-> may_move s (ia_tid a) ow (ia_spender a) now).
Proof.
  intros Hr Ho Hf Hc.
  assert (E : is_approved s now a = true <->
     akey (ia_spender a) = akey ow \/ token_approved s (ia_tid a) (ia_spender a) now).
  { apply is_approved_iff; auto.
    - rewrite Hf. destruct (ia_spender a); reflexivity.
    - intros k ka ap m X Y. eapply (reachable_col_keys _ Hr); eauto. }
  split; [exact E|]. intros Nc. rewrite E. unfold may_move. tauto.
Qed.
Print Assumptions C27_is_approved_partial.

Example C27_example :
  reachable demo2 /\ owner_of demo2 1 = Some (acct alice) /\
  collection_approval demo2 (acct bob) (acct bob) = None /\
  is_approved demo2 (t0 + 3000000000) (mkIsApproved (acct bob) None 1) = true /\
  is_approved demo2 (t0 + 3000000000) (mkIsApproved (acct bob) None 2) = false /\
  is_approved demo2 (t0 + 3000000000) (mkIsApproved (acct alice) None 2) = true.
Proof. splits; try apply demo_reachable; vm_compute; reflexivity. Qed.

(** ** C28 *)

(** The first page: [p] followed by what is left over is all stored approvals, newest first; its length is exact. *)
Theorem C28_listing_first_page order s t tk :
  (forall x, order x ≡ₚ x) ->
  let p := icrc37_get_token_approvals order s t None tk in
  exists rest aps,
    StronglySorted (fun x y => ai_created y <= ai_created x) (p ++ rest) /\
    aps ≡ₚ approvals_on s t /\ Forall2 shows (p ++ rest) aps /\
    length p = Nat.min (N.to_nat (match tk with Some n => if n <? 2 ^ 32 then n else 10 | None => 10 end))
                       (length (approvals_on s t)).
Proof.
  intros Ho p. destruct (approvals_page_first (order (token_approvals_entries s t)) tk) as (rest & E & L).
  destruct (entries_shows s t order Ho) as (aps & P & F). exists rest, aps.
  unfold p, icrc37_get_token_approvals. rewrite E. splits.
  - apply (StronglySorted_merge_sort newer).
  - exact P.
  - exact F.
  - rewrite L. unfold page_take. change (2 ^ 32) with two32. f_equal.
    rewrite Ho. unfold token_approvals_entries, approvals_on. destruct (tok_appr s !! t); [rewrite !map_length|]; reflexivity.
Qed.
Print Assumptions C28_listing_first_page.

(** Same for collections. *)
Theorem C28_collection_listing_first_page order s ow tk :
  (forall x, order x ≡ₚ x) ->
  let p := icrc37_get_collection_approvals order s ow None tk in
  exists rest aps,
    StronglySorted (fun x y => ai_created y <= ai_created x) (p ++ rest) /\
    aps ≡ₚ approvals_of s ow /\ Forall2 shows (p ++ rest) aps /\
    length p = Nat.min (N.to_nat (match tk with Some n => if n <? 2 ^ 32 then n else 10 | None => 10 end))
                       (length (approvals_of s ow)).
Proof.
  intros Ho p. destruct (approvals_page_first (order (collection_approvals_entries s ow)) tk) as (rest & E & L).
  destruct (entries_shows_coll s ow order Ho) as (aps & P & F). exists rest, aps.
  unfold p, icrc37_get_collection_approvals. rewrite E. splits.
  - apply (StronglySorted_merge_sort newer).
  - exact P.
  - exact F.
  - rewrite L. unfold page_take. change (2 ^ 32) with two32. f_equal.
    rewrite Ho. unfold collection_approvals_entries, approvals_of.
    destruct (col_appr s !! akey ow); [rewrite !map_length|]; reflexivity.
Qed.
Print Assumptions C28_collection_listing_first_page.

(** Paging by the last spender visits every approval of a token once, whatever the iteration order of the hash map at each
    call, provided the creation times differ. *)
Theorem C28_paging orders s t tk fuel :
  reachable s -> (forall k x, orders k x ≡ₚ x) ->
  match tk with Some n => n <> 0 | None => True end ->
  NoDup (map a_created (approvals_on s t)) -> (length (approvals_on s t) < fuel)%nat ->
  exists l aps, walk (fun k prev => Some (icrc37_get_token_approvals (orders k) s t prev tk)) ai_spender fuel None = Some l /\
    aps ≡ₚ approvals_on s t /\ Forall2 shows l aps /\ StronglySorted (fun x y => ai_created y <= ai_created x) l.
Proof.
  intros Hr Ho Ht ND Hf.
  set (L := merge_sort newer (map listed_info (orders 0%nat (token_approvals_entries s t)))).
  destruct (entries_shows s t (orders 0%nat) (Ho 0%nat)) as (aps & P & F). fold L in F.
  exists L, aps.
  assert (SL : StronglySorted newer L) by (apply (StronglySorted_merge_sort newer)).
  assert (CL : NoDup (map ai_created L)).
  { assert (map ai_created L = map a_created aps) as ->.
    { clear -F. induction F as [|x y l l' S _ IH]; [reflexivity|]. simpl. f_equal; [apply S|exact IH]. }
    eapply NoDup_Permutation_proper; [apply fmap_Permutation; exact P|exact ND]. }
  split; [|split; [exact P|split; [exact F|exact SL]]].
  unfold icrc37_get_token_approvals. apply walk_approvals.
  - intros f. symmetry. apply sorted_newer_unique; auto.
    + apply (StronglySorted_merge_sort newer).
    + unfold L. rewrite !merge_sort_Permutation. apply fmap_Permutation. rewrite !Ho. reflexivity.
  - assert (PL : L ≡ₚ map listed_info (token_approvals_entries s t)).
    { unfold L. rewrite merge_sort_Permutation. apply fmap_Permutation. apply Ho. }
    eapply NoDup_Permutation_proper; [apply fmap_Permutation; exact PL|].
    unfold token_approvals_entries. destruct (tok_appr s !! t) as [m|] eqn:E; [|constructor].
    apply spenders_NoDup. intros. eapply token_entry_spender; eauto.
  - unfold page_take. destruct tk as [n|]; [|lia]. destruct (n <? two32); lia.
  - rewrite (Forall2_length _ _ _ F), P. exact Hf.
Qed.
Print Assumptions C28_paging.

(** The listed from_subaccount is not the one the approval was given from (it is the spender's). *)
Theorem C28_from_subaccount_refuted :
  exists s t, reachable s /\
    map (fun ap => acc_sub (a_from ap)) (approvals_on s t) = [None] /\
    map ai_from_sub (icrc37_get_token_approvals (fun x => x) s t None None) = [Some sub7].
Proof.
  exists (run (demo1_h ++ [(from_ alice 0, OApproveTokens [mkApproveArg 1 (mkInfo (mkAcc bob (Some sub7)) None None None t0)])]) demo0), 1.
  split; [apply demo_reachable|]. split; vm_compute; reflexivity.
Qed.
Print Assumptions C28_from_subaccount_refuted.

(** Three approvals, pages of two. *)
Definition demo_appr3 : state :=
  run (demo2_h ++ [(from_ alice 3000000000, OApproveTokens [appr 1 carol 3000000000 None]);
                   (from_ alice 4000000000, OApproveTokens [appr 1 admin 4000000000 None])]) demo0.
Example C28_example :
  reachable demo_appr3 /\ length (approvals_on demo_appr3 1) = 3%nat /\
  NoDup (map a_created (approvals_on demo_appr3 1)) /\
  option_map (map (fun i => acc_owner (ai_spender i)))
    (walk (fun k prev => Some (icrc37_get_token_approvals (if Nat.even k then (fun x => x) else @rev _) demo_appr3 1 prev (Some 2)))
       ai_spender 5 None) = Some [admin; carol; bob].
Proof.
  splits; [apply demo_reachable|vm_compute; reflexivity| |vm_compute; reflexivity].
  vm_compute map. repeat constructor; rewrite ?elem_of_cons, ?elem_of_nil; intuition discriminate.
Qed.
