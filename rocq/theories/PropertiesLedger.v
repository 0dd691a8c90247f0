(** C01-C19: token ids, supply, ownership, batches, log, rate limit. *)
From Verif Require Import Base ModelPrincipal ModelState ModelIcrc7 ModelIcrc37 ModelManagement ModelLifecycle
  ModelQueries ModelStep ProofsItems ProofsManage ProofsMicro Spec ProofsCore ProofsOwner ProofsTime ProofsLog ProofsRate Scenario.

(** ** C01 *)

(** All ids ever handed out, over a whole history, are distinct; they are 1, 2, 3, ... in the order of minting. *)
Theorem C01_ids_never_reused caller url_ok a s0 h :
  init caller url_ok a = Some s0 ->
  NoDup (all_minted (trace h s0)) /\
  all_minted (trace h s0) = count_from 1 (length (all_minted (trace h s0))).
Proof.
  intros Hi. destruct (minted_trace h s0) as [M _].
  destruct (init_last_id _ _ _ _ Hi) as (L & _). rewrite L in M.
  split; [|exact M]. rewrite M. apply count_from_NoDup.
Qed.
Print Assumptions C01_ids_never_reused.

(** A successful mint answered with [k] creates exactly [k], [k+1], ... for its requests, in order; they did not exist. *)
Theorem C01_mint_creates e l s s' k :
  reachable s -> step e (OMint l) s = (s', ANat k) ->
  forall i, match l !! N.to_nat (i - k) with
            | Some r => if decide (k <= i) then owner_of s i = None /\ owner_of s' i = Some (mr_owner r)
                        else owner_of s' i = owner_of s i
            | None => owner_of s' i = owner_of s i
            end.
Proof.
  intros Hr H i. pose proof (reachable_wf _ Hr) as W.
  destruct (step_mint _ _ _ _ _ H) as (-> & _ & _ & _ & _ & _ & m & idxs & n & _ & _ & ->).
  unfold owner_of; simpl. rewrite mint_tokens_lookup. unfold nlen.
  destruct (l !! N.to_nat (i - last_id s)) as [r|] eqn:L.
  - pose proof (lookup_lt_Some _ _ _ L) as Lt.
    destruct (decide (last_id s <= i)) as [D|D].
    + destruct (decide _) as [D2|D2]; [|lia]. simpl. split; [|reflexivity].
      destruct (tokens s !! i) as [t|] eqn:T; [|reflexivity]. pose proof (wf_lt _ W _ _ T). lia.
    + destruct (decide _) as [D2|D2]; [lia|]. reflexivity.
  - apply lookup_ge_None in L. destruct (decide _) as [D2|D2]; [lia|]. reflexivity.
Qed.
Print Assumptions C01_mint_creates.

(** Three tokens are minted, one is burned, one more is minted: it gets id 4. *)
Example C01_example :
  let h := demo1_h ++ [(from_ alice 1, OBurn 2); (from_ admin 2, OMint [mkMint (acct carol) None []])] in
  init admin (fun _ => true) demo_args = Some demo0 /\ reachable (run h demo0) /\
  all_minted (trace h demo0) = [1; 2; 3; 4] /\ snd (step (from_ admin 0) mint3 demo0) = ANat 1 /\
  owner_of (run h demo0) 2 = None /\ owner_of (run h demo0) 4 = Some (acct carol).
Proof.
  intros h. split; [apply demo0_init|]. split; [apply demo_reachable|].
  splits; vm_compute; reflexivity.
Qed.

(** ** C02 *)
Theorem C02_supply_cap e o s s' ans :
  reachable s -> step e o s = (s', ans) ->
  match o, ans with
  | OMint _, ANat _ => total_supply s' <= default 10000 (c_supply_cap (cfg s)) /\ cfg s' = cfg s
  | _, _ => total_supply s' <= total_supply s
  end.
Proof. change 10000 with default_supply_cap.
  intros Hr H. pose proof (reachable_wf _ Hr) as W. pose proof (supply_step _ _ _ _ _ W H) as S.
  unfold total_supply in *.
  destruct o; try (cbn in S; lia).
  - destruct ans; try (cbn in S; lia).
    destruct (step_mint _ _ _ _ _ H) as (-> & _ & _ & _ & _ & Cap & m & idxs & n0 & _ & _ & ->).
    unfold minted_ids, burned_ids in S. cbn [ev_op ev_ans] in S. rewrite count_from_length in S. simpl in *.
    unfold nlen in Cap. split; [lia|reflexivity].
Qed.
Print Assumptions C02_supply_cap.

Example C02_example : reachable demo0 /\ snd (step (from_ admin 0) mint3 demo0) = ANat 1 /\ total_supply demo1 = 3.
Proof. split; [apply (demo_reachable [])|]. split; vm_compute; reflexivity. Qed.

(** ** C03 *)
Theorem C03_supply_counts caller url_ok a s0 h :
  init caller url_ok a = Some s0 ->
  total_supply (run h s0) + nlen (all_burned (trace h s0)) = nlen (all_minted (trace h s0)) /\
  (forall i, is_Some (owner_of (run h s0) i) <-> i ∈ all_minted (trace h s0) /\ i ∉ all_burned (trace h s0)) /\
  (exists ids, NoDup ids /\ nlen ids = total_supply (run h s0) /\
     forall i, i ∈ ids <-> is_Some (owner_of (run h s0) i)).
Proof.
  intros Hi. pose proof (init_wf _ _ _ _ Hi) as W.
  destruct (init_last_id _ _ _ _ Hi) as (_ & T0 & _).
  pose proof (supply_trace h s0 W) as S. rewrite T0, map_size_empty in S.
  split; [unfold total_supply, nlen; lia|]. split.
  - intros i. pose proof (exists_trace h s0 i W) as X. rewrite T0, lookup_empty in X.
    unfold owner_of. rewrite fmap_is_Some, X. split; [|tauto]. intros [[[? ?]|?] ?]; [discriminate|auto].
  - exists (elements (dom (tokens (run h s0)))). split; [apply NoDup_elements|]. split.
    + unfold total_supply, nlen. rewrite <- size_dom. reflexivity.
    + intros i. rewrite elem_of_elements, elem_of_dom. unfold owner_of. rewrite fmap_is_Some. reflexivity.
Qed.
Print Assumptions C03_supply_counts.

Example C03_example :
  let h := demo1_h ++ [(from_ alice 1, OBurn 2)] in
  init admin (fun _ => true) demo_args = Some demo0 /\
  all_minted (trace h demo0) = [1; 2; 3] /\ all_burned (trace h demo0) = [2] /\ total_supply (run h demo0) = 2.
Proof. split; [apply demo0_init|]. splits; vm_compute; reflexivity. Qed.

(** ** C04 *)
Theorem C04_only_entitled_move e o s t ow :
  reachable s -> owner_of s t = Some ow -> owner_of (fst (step e o s)) t <> Some ow ->
  acc_owner ow = e_caller e \/
  exists l a, o = OTransferFrom l /\ a ∈ l /\ tf_tid a = t /\
    (token_approved s t (mkAcc (e_caller e) (tf_spender_sub a)) (e_now e) \/
     collection_approved s ow (mkAcc (e_caller e) (tf_spender_sub a)) (e_now e)).
Proof. intros Hr. exact (step_entitled e o s t ow (reachable_wf _ Hr)). Qed.
Print Assumptions C04_only_entitled_move.

(** carol moves alice's token 2 with the collection approval; bob, approved on token 1 only, cannot. *)
Example C04_example :
  reachable demo2 /\ owner_of demo2 2 = Some (acct alice) /\
  owner_of (fst (step (from_ carol 3000000000) (OTransferFrom [tfrom alice bob 2]) demo2)) 2 = Some (acct bob) /\
  owner_of (fst (step (from_ bob 3000000000) (OTransferFrom [tfrom alice bob 2]) demo2)) 2 = Some (acct alice).
Proof. split; [apply demo_reachable|]. splits; vm_compute; reflexivity. Qed.

(** ** C05 *)
Theorem C05_transfer_from_clears_approvals e s l s' bs k a i :
  step e (OTransferFrom l) s = (s', ABatch bs) -> l !! k = Some a -> bs !! k = Some (Ok i) ->
  (forall sp now, ~ token_approved s' (tf_tid a) sp now) /\
  (forall order prev tk, (forall x, order x ≡ₚ x) -> icrc37_get_token_approvals order s' (tf_tid a) prev tk = []).
Proof.
  intros H Hk Hb. pose proof (transfer_from_clears _ _ _ _ _ _ _ _ H Hk Hb) as E. split.
  - intros sp now (m & key & ap & X & _). congruence.
  - intros order prev tk Ho. unfold icrc37_get_token_approvals, token_approvals_entries. rewrite E.
    assert (order [] = []) as -> by (apply Permutation_nil; symmetry; apply Ho).
    unfold approvals_page. simpl. destruct prev; simpl; unfold take_n; rewrite firstn_nil; reflexivity.
Qed.
Print Assumptions C05_transfer_from_clears_approvals.

Example C05_example :
  step (from_ bob 3000000000) (OTransferFrom [tfrom alice carol 1]) demo2 =
    (fst (step (from_ bob 3000000000) (OTransferFrom [tfrom alice carol 1]) demo2), ABatch [Ok 5]) /\
  is_Some (tok_appr demo2 !! 1).
Proof. split; [apply snd_pair; vm_compute; reflexivity|]. vm_compute. eauto. Qed.

(** ** C06 *)

(** Refuted: bob, approved by alice, moves the token after alice gave it to carol with icrc7_transfer. *)
Theorem C06_new_owner_free_refuted :
  exists s e1 e2 t, reachable s /\
    owner_of s t = Some (acct alice) /\
    let s1 := fst (step e1 (OTransfer [xfer carol t]) s) in
    snd (step e1 (OTransfer [xfer carol t]) s) = ABatch [Ok 5] /\ owner_of s1 t = Some (acct carol) /\
    e_caller e2 = bob /\
    owner_of (fst (step e2 (OTransferFrom [tfrom carol bob t]) s1)) t = Some (acct bob).
Proof.
  exists demo2, (from_ alice 3000000000), (from_ bob 4000000000), 1.
  split; [apply demo_reachable|]. splits; vm_compute; reflexivity.
Qed.
Print Assumptions C06_new_owner_free_refuted.

(** What does hold: icrc7_transfer leaves all approvals exactly as they were. Missing for C06: that they are removed. *)
Theorem C06_transfer_keeps_approvals_partial e a s s' i :
  reachable s -> step e (OTransfer [a]) s = (s', ABatch [Ok i]) -> tok_appr s' = tok_appr s /\ col_appr s' = col_appr s.
Proof.
  intros Hr H. destruct (transfer_ok_effect _ _ _ _ _ (reachable_wf _ Hr) H) as
    [[(?&?&?&?&?&?&?&?&?&?&?&?&?&?) _]|(ow & _ & _ & _ & _ & _ & _ & _ & ? & ? & _)]; auto.
Qed.
Print Assumptions C06_transfer_keeps_approvals_partial.

Example C06_example :
  reachable demo2 /\ snd (step (from_ alice 3000000000) (OTransfer [xfer carol 1]) demo2) = ABatch [Ok 5].
Proof. split; [apply demo_reachable|vm_compute; reflexivity]. Qed.

(** ** C07 *)

(** Everything but the memory of the rate limiter is as before: settings, permissions, owners, approvals, metadata,
    uploads, redirections, log. *)
Theorem C07_refused_item_changes_nothing e s s' er :
  (exists a, step e (OTransfer [a]) s = (s', ABatch [Err er])) \/
  (exists a, step e (OApproveTokens [a]) s = (s', ABatch [Err er])) \/
  (exists a, step e (OApproveCollection [a]) s = (s', ABatch [Err er])) \/
  (exists a, step e (ORevokeTokens [a]) s = (s', ABatch [Err er])) \/
  (exists a, step e (ORevokeCollection [a]) s = (s', ABatch [Err er])) \/
  (exists t, step e (OBurn t) s = (s', AErr er)) ->
  ledger_same s s'.
Proof.
  intros [[a H]|[[a H]|[[a H]|[[a H]|[[a H]|[t H]]]]]].
  - eapply transfer_err_effect; eauto.
  - eapply approve_err_effect; eauto.
  - eapply approve_coll_err_effect; eauto.
  - eapply revoke_err_effect; eauto.
  - eapply revoke_coll_err_effect; eauto.
  - eapply burn_err_effect; eauto.
Qed.
Print Assumptions C07_refused_item_changes_nothing.

Example C07_example :
  snd (step (from_ bob 3000000000) (OTransfer [xfer carol 1]) demo2) = ABatch [Err EInvalidRecipient] /\
  snd (step (from_ bob 3000000000) (OApproveTokens [appr 1 carol 3000000000 None]) demo2) = ABatch [Err EUnauthorized] /\
  snd (step (from_ carol 3000000000) (OApproveCollection [info bob 3000000000 None]) demo2)
    = ABatch [Err (EGeneric 1 "Caller must own at least one NFT to approve collection")] /\
  snd (step (from_ bob 3000000000) (ORevokeTokens [mkRevokeArg None None 1 None None]) demo2) = ABatch [Err EUnauthorized] /\
  snd (step (from_ bob 3000000000) (ORevokeCollection [mkRevokeCollArg None None None None]) demo2)
    = ABatch [Err EApprovalDoesNotExist] /\
  snd (step (from_ bob 3000000000) (OBurn 1) demo2) = AErr ENotTokenOwner.
Proof. splits; vm_compute; reflexivity. Qed.

(** A refused transfer_from changes neither owners nor log; approvals can only disappear (expired ones). *)
Theorem C07_refused_transfer_from e a s s' er :
  step e (OTransferFrom [a]) s = (s', ABatch [Err er]) ->
  tokens s' = tokens s /\ by_owner s' = by_owner s /\ log s' = log s /\ metas s' = metas s /\ cfg s' = cfg s /\
  perms s' = perms s /\ appr_sub s s'.
Proof. exact (transfer_from_err_effect e a s s' er). Qed.
Print Assumptions C07_refused_transfer_from.

Example C07_transfer_from_example :
  snd (step (from_ bob 3000000000) (OTransferFrom [tfrom alice bob 2]) demo2) = ABatch [Err EUnauthorized].
Proof. vm_compute. reflexivity. Qed.

(** A mint that answers an error changes no owner and no supply, ... *)
Theorem C07_refused_mint_partial e l s s' er :
  step e (OMint l) s = (s', AErr er) ->
  tokens s' = tokens s /\ by_owner s' = by_owner s /\ last_id s' = last_id s /\
  ((forall m, er <> EStorageCanisterError m) -> s' = s).
Proof.
  intros H. pose proof (step_mint_other e l s) as X. rewrite H in X. simpl in X.
  destruct (X ltac:(discriminate)) as (T & L & B). repeat split; auto.
  intros Hne. revert H. simpl. unfold mint, with_permission. destruct (has_permission _ _ _); [|discriminate].
  rewrite (with_lock_eq _ _ _ (commutes_mint e l)). destruct (decide _); [|intros [= <- <-]; reflexivity].
  destruct (mint_body e l s) as [[s1 r]|] eqn:M; [|discriminate].
  destruct (mint_body_inv _ _ _ _ _ M) as
      [(-> & er' & -> & _)|(CM & Mx & Cap & m & idxs & n & Me & [(msg & -> & Hl & ->)|(-> & Hl & ->)])]; simpl.
  - intros [= <- <-]. reflexivity.
  - intros [= <- <-]. destruct (Hne _ eq_refl).
  - discriminate.
Qed.
Print Assumptions C07_refused_mint_partial.

Example C07_mint_example :
  snd (step (from_ admin 0) (OMint [mkMint (acct alice) (Some (repeat 0 11%nat)) []]) demo0) = AErr EInvalidMemo.
Proof. vm_compute. reflexivity. Qed.

(** ... but it can leave blocks in the log (missing part of C07): the log accepts the first token and refuses the second. *)
Theorem C07_mint_log_refuted :
  exists s e l s' er, reachable s /\ step e (OMint l) s = (s', AErr er) /\ log s' <> log s.
Proof.
  pose (e := with_log (fun k _ => if k =? 0 then LOk 0 else LErr "full") (from_ admin 0)).
  exists demo0, e, [mkMint (acct alice) None []; mkMint (acct bob) None []],
    (fst (step e (OMint [mkMint (acct alice) None []; mkMint (acct bob) None []]) demo0)),
    (EStorageCanisterError "full").
  split; [apply (demo_reachable [])|]. split.
  - apply snd_pair; vm_compute; reflexivity.
  - vm_compute. discriminate.
Qed.
Print Assumptions C07_mint_log_refuted.

(** ** C08 *)
Theorem C08_trap_changes_nothing e o s s' :
  step e o s = (s', ATrap) ->
  match o with
  | OReply _ _ => ledger_same (set_guards (guards s') (set_pend (pend s') s)) s'
  | _ => s' = s
  end.
Proof.
  destruct o; simpl.
  - unfold ans_batch. destruct (icrc7_transfer e s args) as [[? ?]|]; [discriminate|congruence].
  - unfold ans_batch. destruct (icrc37_approve_tokens e s args) as [[? ?]|]; [discriminate|congruence].
  - unfold ans_batch. destruct (icrc37_approve_collection e s args) as [[? ?]|]; [discriminate|congruence].
  - destruct (icrc37_revoke_token_approvals e s args) as [[? [?|?]]|]; [discriminate..|congruence].
  - unfold ans_batch. destruct (icrc37_revoke_collection_approvals e s args) as [[? ?]|]; [discriminate|congruence].
  - unfold ans_batch. destruct (icrc37_transfer_from e s args) as [[? ?]|]; [discriminate|congruence].
  - unfold ans_unit. destruct (update_collection_metadata e s u) as [[? [?|?|?]]|]; [discriminate..|congruence].
  - unfold ans_nat. destruct (mint e s reqs) as [[? [?|?|?]]|]; [discriminate..|congruence].
  - unfold ans_nat. destruct (update_nft_metadata e s tid kvs) as [[? [?|?|?]]|]; [discriminate..|congruence].
  - unfold ans_unit. destruct (burn_nft e s tid) as [[? [?|?|?]]|]; [discriminate..|congruence].
  - unfold ans_unit. destruct (grant_permission e s p perm) as [[? [?|?|?]]|]; [discriminate..|congruence].
  - unfold ans_unit. destruct (revoke_permission e s p perm) as [[? [?|?|?]]|]; [discriminate..|congruence].
  - unfold ans_upload. destruct (init_upload e s path size) as [? [[?|?|?]|]]; discriminate.
  - unfold ans_upload. destruct (store_chunk e s path) as [? [[?|?|?]|]]; discriminate.
  - unfold ans_upload. destruct (finalize_upload e s path) as [? [[?|?|?]|]]; discriminate.
  - unfold ans_upload. destruct (cancel_upload e s path) as [? [[?|?|?]|]]; discriminate.
  - unfold resume. destruct (pend s !! id) as [p|]; [|intros [= <-]; repeat split; reflexivity].
    destruct p, r; simpl; intros [= <-]; repeat split; reflexivity.
  - discriminate.
Qed.
Print Assumptions C08_trap_changes_nothing.

Example C08_example :
  snd (step (from_ alice 3000000000) (ORevokeTokens []) demo2) = ATrap /\
  snd (step (from_ admin 3000000000) (OUpdateMeta 1 [("n"%string, VNat two64)]) demo2) = ATrap.
Proof. split; vm_compute; reflexivity. Qed.

(** With settings that fit the machine words, icrc7_transfer never traps, whatever the batch. *)
Theorem C08_transfer_never_traps e l s :
  default 100 (c_max_update (cfg s)) < two32 ->
  default 1000000 (c_max_memo (cfg s)) < two32 ->
  default 50000000 (c_drift (cfg s)) < two64 ->
  default 10000000000 (c_tx_window (cfg s)) < two64 ->
  snd (step e (OTransfer l) s) <> ATrap.
Proof. change 10000000000 with default_tx_window. change 50000000 with default_drift. change 100 with default_max_update. change 1000000 with default_max_memo.
  intros H1 H2 H3 H4. simpl. unfold icrc7_transfer. destruct l as [|a0 l0]; [discriminate|].
  set (l := a0 :: l0). unfold usize_try. rewrite (proj2 (N.ltb_lt _ _) H1).
  destruct (_ && _); [discriminate|]. destruct (bool_decide _); [discriminate|].
  generalize (take_n (default default_max_update (c_max_update (cfg s))) l). clear l l0. intros l.
  assert (X : forall l s1, cfg s1 = cfg s -> run_items (transfer_nft e) s1 l <> None).
  { clear l. induction l as [|a l IH]; intros s1 C; simpl; [discriminate|].
    destruct (transfer_nft e s1 a) as [[s2 b]|] eqn:F.
    - specialize (IH s2). rewrite (transfer_item_cfg _ _ _ _ _ F) in IH. specialize (IH C).
      destruct (run_items (transfer_nft e) s2 l) as [[? ?]|]; [discriminate|congruence].
    - exfalso. revert F. unfold transfer_nft.
      destruct (guard_sliding_window _ _ _) as [s2 pass] eqn:G.
      pose proof (quiet_cfg _ _ (guard_quiet _ _ _ _ _ G)) as C2.
      destruct pass; cbn [negb]; [|discriminate].
      destruct (tokens s2 !! ta_tid a); [|discriminate].
      assert (M : check_memo s2 (ta_memo a) <> None).
      { unfold check_memo. destruct (ta_memo a); [|discriminate]. rewrite C2, C. unfold usize_try.
        rewrite (proj2 (N.ltb_lt _ _) H2). discriminate. }
      destruct (check_memo s2 (ta_memo a)) as [[|]|]; [|discriminate|congruence].
      destruct (_ || _); [discriminate|].
      assert (D : u64_setting (c_drift (cfg s2)) default_drift <> None).
      { rewrite C2, C. unfold u64_setting, u64_try. destruct (c_drift (cfg s)); [|discriminate]. simpl in H3.
        rewrite (proj2 (N.ltb_lt _ _) H3). discriminate. }
      destruct (u64_setting (c_drift (cfg s2)) default_drift); [|congruence].
      destruct (_ <? _); [discriminate|].
      assert (D2 : u64_setting (c_tx_window (cfg s2)) default_tx_window <> None).
      { rewrite C2, C. unfold u64_setting, u64_try. destruct (c_tx_window (cfg s)); [|discriminate]. simpl in H4.
        rewrite (proj2 (N.ltb_lt _ _) H4). discriminate. }
      destruct (u64_setting (c_tx_window (cfg s2)) default_tx_window); [|congruence].
      destruct (_ <? _); [discriminate|].
      destruct (add_transaction _ _ _) as [s3 ans]. destruct ans; discriminate. }
  specialize (X l s eq_refl). destruct (run_items _ _ _) as [[? ?]|]; [discriminate|congruence].
Qed.
Print Assumptions C08_transfer_never_traps.

(** The default settings meet the hypotheses; a permitted drift of 2^64 does not and blocks every transfer. *)
Example C08_never_traps_example :
  (default 100 (c_max_update (cfg demo2)) < two32 /\
   default 1000000 (c_max_memo (cfg demo2)) < two32 /\
   default 50000000 (c_drift (cfg demo2)) < two64 /\
   default 10000000000 (c_tx_window (cfg demo2)) < two64) /\
  let u := mkCU None None None None None None None None None None None None (Some two64) None None in
  snd (step (from_ alice 3000000000) (OTransfer [xfer carol 1]) (fst (step (from_ admin 0) (OUpdateCollection u) demo2)))
    = ATrap.
Proof. split; [splits; vm_compute; reflexivity|vm_compute; reflexivity]. Qed.

(** ** C09 *)

(** Holds unless the log answered "duplicate" (then nothing at all happens although the answer is Ok): the
    missing part of C09 is that case. *)
Theorem C09_transfer_exact_partial e a s s' i :
  reachable s -> step e (OTransfer [a]) s = (s', ABatch [Ok i]) ->
  (forall k t, e_log e k t <> LDup i) ->
  exists ow, owner_of s (ta_tid a) = Some ow /\ acc_owner ow = e_caller e /\
    (forall t, owner_of s' t = if decide (t = ta_tid a) then Some (ta_to a) else owner_of s t) /\
    log s' = log s ++ [(i, mkTx "7xfer" (e_now e) (Some (ta_tid a)) (Some ow) (Some (ta_to a)) None None None
                             (ta_memo a) (Some (default (e_now e) (ta_created a))))] /\
    cfg s' = cfg s /\ perms s' = perms s /\ metas s' = metas s /\ files s' = files s /\ redirs s' = redirs s.
Proof.
  intros Hr H Nd. destruct (transfer_ok_effect _ _ _ _ _ (reachable_wf _ Hr) H) as
    [[_ (k & t & X)]|(ow & O1 & O2 & O3 & L & C1 & C2 & C3 & _ & _ & C4 & C5)]; [destruct (Nd _ _ X)|].
  exists ow. repeat split; auto. intros t. rewrite <- !owners_lookup, O3.
  destruct (decide (t = ta_tid a)) as [->|Hne]; [apply lookup_insert|]. apply lookup_insert_ne. congruence.
Qed.
Print Assumptions C09_transfer_exact_partial.

Example C09_example :
  reachable demo2 /\ snd (step (from_ alice 3000000000) (OTransfer [xfer carol 1]) demo2) = ABatch [Ok 5] /\
  (forall k t, e_log (from_ alice 3000000000) k t <> LDup 5).
Proof. split; [apply demo_reachable|]. split; [vm_compute; reflexivity|]. intros k t. discriminate. Qed.

(** Refuted as stated: a transfer the log considers a duplicate is answered with Ok and moves nothing. *)
Theorem C09_transfer_exact_refuted :
  exists s e a i, reachable s /\ snd (step e (OTransfer [a]) s) = ABatch [Ok i] /\
    owner_of (fst (step e (OTransfer [a]) s)) (ta_tid a) <> Some (ta_to a) /\
    log (fst (step e (OTransfer [a]) s)) = log s.
Proof.
  exists demo2, (with_log (fun _ _ => LDup 3) (from_ alice 3000000000)), (xfer carol 1), 3.
  split; [apply demo_reachable|]. splits; vm_compute; first [reflexivity|discriminate].
Qed.
Print Assumptions C09_transfer_exact_refuted.

(** ** C10 *)
Theorem C10_transfer_from_exact e a s s' i :
  reachable s -> step e (OTransferFrom [a]) s = (s', ABatch [Ok i]) ->
  exists ow, owner_of s (tf_tid a) = Some ow /\ akey ow = akey (tf_from a) /\
    (forall t, owner_of s' t = if decide (t = tf_tid a) then Some (tf_to a) else owner_of s t) /\
    log s' = log s ++ [(i, mkTx "37xfer" (e_now e) (Some (tf_tid a)) (Some (tf_from a)) (Some (tf_to a))
                              (Some (mkAcc (e_caller e) (tf_spender_sub a))) None None (tf_memo a) (tf_created a))] /\
    cfg s' = cfg s /\ perms s' = perms s /\ metas s' = metas s /\ files s' = files s /\ redirs s' = redirs s.
Proof.
  intros Hr H. destruct (transfer_from_ok_effect _ _ _ _ _ (reachable_wf _ Hr) H) as
    (ow & O1 & O2 & O3 & L & C1 & C2 & C3 & C4 & C5).
  exists ow. repeat split; auto. intros t. rewrite <- !owners_lookup, O3.
  destruct (decide (t = tf_tid a)) as [->|Hne]; [apply lookup_insert|]. apply lookup_insert_ne. congruence.
Qed.
Print Assumptions C10_transfer_from_exact.

Example C10_example :
  reachable demo2 /\ snd (step (from_ bob 3000000000) (OTransferFrom [tfrom alice carol 1]) demo2) = ABatch [Ok 5].
Proof. split; [apply demo_reachable|vm_compute; reflexivity]. Qed.

(** ** C11 *)

(** Full statement, refuted: a mint whose second block the log refuses leaves a block for a token that does not exist. *)
Theorem C11_log_replay_refuted :
  exists s, reachable s /\ replay (blocks s) <> Some (owners s) /\ replay_last (blocks s) <> owners s.
Proof.
  pose (e := with_log (fun k _ => if k =? 0 then LOk 0 else LErr "full") (from_ admin 0)).
  pose (h := [(e, OMint [mkMint (acct alice) None []; mkMint (acct bob) None []])]).
  exists (run h demo0). split; [apply demo_reachable|].
  assert (X : owners (run h demo0) !! 1 = None) by (vm_compute; reflexivity). split; intros E.
  - assert (Y : (match replay (blocks (run h demo0)) with Some m => m !! 1 | None => None end) = Some (acct alice))
      by (vm_compute; reflexivity).
    rewrite E, X in Y. discriminate.
  - assert (Y : replay_last (blocks (run h demo0)) !! 1 = Some (acct alice)) by (vm_compute; reflexivity).
    rewrite E, X in Y. discriminate.
Qed.
Print Assumptions C11_log_replay_refuted.

(** Exact for every history in which no mint of two or more tokens was answered with a failure of the log.  The replay
    is strict: a mint of an existing token, or a transfer or burn from somebody who is not the owner, makes it fail. *)
Theorem C11_log_replay_partial caller url_ok a s0 h :
  init caller url_ok a = Some s0 ->
  (forall ev l m, ev ∈ trace h s0 -> ev_op ev = OMint l -> ev_ans ev = AErr (EStorageCanisterError m) ->
     (length l <= 1)%nat) ->
  replay (blocks (run h s0)) = Some (owners (run h s0)).
Proof.
  intros Hi H. apply log_exact_trace; [eapply init_wf; eauto| |exact H].
  destruct (init_last_id _ _ _ _ Hi) as (_ & T & _ & _ & _ & _ & _ & _ & _ & L & _).
  unfold log_exact, blocks, owners. rewrite T, L. simpl. rewrite fmap_empty. reflexivity.
Qed.
Print Assumptions C11_log_replay_partial.

(** With no condition at all: for every id handed out so far, the last block about it tells its owner (or that it was
    burned).  Missing: the blocks of failed mints about ids not yet handed out. *)
Theorem C11_log_last_partial caller url_ok a s0 h i :
  init caller url_ok a = Some s0 -> i ∈ all_minted (trace h s0) ->
  replay_last (blocks (run h s0)) !! i = owner_of (run h s0) i.
Proof.
  intros Hi H. assert (R : reachable (run h s0)) by (exists caller, url_ok, a, s0, h; auto).
  rewrite (log_last_reachable _ R); [apply owners_lookup|].
  destruct (minted_trace h s0) as [M L]. rewrite L. rewrite M, count_from_elem in H. lia.
Qed.
Print Assumptions C11_log_last_partial.

(** Mints, a transfer, a transfer_from, a burn. *)
Example C11_example :
  let h := demo2_h ++ [(from_ alice 3000000000, OTransfer [xfer bob 1]);
                       (from_ carol 4000000000, OTransferFrom [tfrom alice bob 2]); (from_ bob 5000000000, OBurn 1)] in
  init admin (fun _ => true) demo_args = Some demo0 /\
  forallb (fun ev => match ev_op ev, ev_ans ev with
                     | OMint l, AErr (EStorageCanisterError _) => (length l <=? 1)%nat
                     | _, _ => true
                     end) (trace h demo0) = true /\
  (3 ∈ all_minted (trace h demo0)) /\
  map tx_btype (blocks (run h demo0)) =
    ["7mint"; "7mint"; "7mint"; "37approve"; "37approve_coll"; "7xfer"; "37xfer"; "7burn"]%string /\
  map (fun i => owner_of (run h demo0) i) [1; 2; 3] = [None; Some (acct bob); Some (acct bob)].
Proof.
  splits; try (vm_compute; reflexivity).
  replace (all_minted (trace h demo0)) with [1; 2; 3] by (vm_compute; reflexivity).
  repeat constructor.
Qed.

(** ** C12 *)
Theorem C12_no_anonymous_recipient e l s t ow :
  reachable s -> owner_of (fst (step e (OTransfer l) s)) t = Some ow -> acc_owner ow = anonymous ->
  owner_of s t = Some ow.
Proof.
  intros Hr Ho Ha.
  eapply (micros_recipient (fun a => acc_owner a = anonymous) e (OTransfer l)); eauto using step_micros, reachable_wf; intros; discriminate.
Qed.
Print Assumptions C12_no_anonymous_recipient.

Theorem C12_no_self_transfer e a s s' i :
  step e (OTransfer [a]) s = (s', ABatch [Ok i]) ->
  e_caller e <> anonymous /\ acc_owner (ta_to a) <> anonymous /\
  exists ow, owner_of s (ta_tid a) = Some ow /\ acc_owner ow = e_caller e /\ akey ow <> akey (ta_to a).
Proof.
  intros H. destruct (transfer_ok_checked _ _ _ _ _ H) as (An & nft & T & O1 & O2 & O3 & _).
  split; [exact An|]. split; [exact O2|]. exists (t_owner nft). unfold owner_of. rewrite T. auto.
Qed.
Print Assumptions C12_no_self_transfer.

Theorem C12_anonymous_caller e l s : e_caller e = anonymous -> fst (step e (OTransfer l) s) = s.
Proof. exact (transfer_anonymous_caller e l s). Qed.
Print Assumptions C12_anonymous_caller.

(** A minted token of the anonymous principal stays where it is; a self transfer is refused; a transfer works. *)
Example C12_example :
  let s := fst (step (from_ admin 0) (OMint [mkMint (acct anonymous) None []; mkMint (acct alice) None []]) demo0) in
  reachable s /\ owner_of (fst (step (from_ alice 5) (OTransfer [xfer anonymous 2]) s)) 1 = Some (acct anonymous) /\
  snd (step (from_ alice 5) (OTransfer [xfer anonymous 2]) s) = ABatch [Err EInvalidRecipient] /\
  snd (step (from_ alice 5) (OTransfer [mkTransferArg (mkAcc alice (Some default_sub)) 2 None None None]) s)
    = ABatch [Err EInvalidRecipient] /\
  snd (step (from_ alice 5) (OTransfer [mkTransferArg (mkAcc alice (Some [1])) 2 None None None]) s) = ABatch [Ok 2] /\
  e_caller (from_ anonymous 5) = anonymous.
Proof.
  split; [apply (demo_reachable [(from_ admin 0, OMint _)])|]. splits; vm_compute; reflexivity.
Qed.

(** ** C13 *)

(** Refuted: only the default account of the anonymous principal is refused. *)
Theorem C13_anonymous_recipient_refuted :
  exists s e a i, reachable s /\ snd (step e (OTransferFrom [a]) s) = ABatch [Ok i] /\
    exists ow, owner_of (fst (step e (OTransferFrom [a]) s)) (tf_tid a) = Some ow /\ acc_owner ow = anonymous.
Proof.
  exists demo2, (from_ bob 3000000000),
    (mkTransferFromArg None (acct alice) (mkAcc anonymous (Some [1])) 1 None None), 5.
  split; [apply demo_reachable|]. split; [vm_compute; reflexivity|].
  exists (mkAcc anonymous (Some [1])). split; vm_compute; reflexivity.
Qed.
Print Assumptions C13_anonymous_recipient_refuted.

(** The default account of the anonymous principal never receives a token. Missing: its other subaccounts. *)
Theorem C13_anonymous_default_account_partial e l s t ow :
  reachable s -> owner_of (fst (step e (OTransferFrom l) s)) t = Some ow -> akey ow = akey (mkAcc anonymous None) ->
  owner_of s t = Some ow.
Proof.
  intros Hr Ho Ha.
  eapply (micros_recipient (fun a => akey a = akey (mkAcc anonymous None)) e (OTransferFrom l));
    eauto using step_micros, reachable_wf; intros; discriminate.
Qed.
Print Assumptions C13_anonymous_default_account_partial.

Example C13_example :
  let s := fst (step (from_ admin 0) (OMint [mkMint (acct anonymous) None []; mkMint (acct alice) None []]) demo0) in
  reachable s /\ owner_of (fst (step (from_ alice 5) (OTransferFrom [tfrom alice bob 2]) s)) 1 = Some (acct anonymous).
Proof. split; [apply (demo_reachable [(from_ admin 0, OMint _)])|]. vm_compute; reflexivity. Qed.

(** ** C14 *)
Theorem C14_transfer_time_window e a s s' i :
  step e (OTransfer [a]) s = (s', ABatch [Ok i]) ->
  default (e_now e) (ta_created a) <= e_now e + default 50000000 (c_drift (cfg s)) /\
  e_now e <= default (e_now e) (ta_created a) +
             default 10000000000 (c_tx_window (cfg s)) + default 50000000 (c_drift (cfg s)).
Proof. change 10000000000 with default_tx_window. change 50000000 with default_drift. exact (transfer_window e a s s' i). Qed.
Print Assumptions C14_transfer_time_window.

Theorem C14_transfer_time_complete e a s s' er :
  step e (OTransfer [a]) s = (s', ABatch [Err er]) ->
  e_now e + default 50000000 (c_drift (cfg s)) < two64 ->
  default 10000000000 (c_tx_window (cfg s)) + default 50000000 (c_drift (cfg s)) < two64 ->
  default (e_now e) (ta_created a) <= e_now e + default 50000000 (c_drift (cfg s)) ->
  e_now e <= default (e_now e) (ta_created a) +
             default 10000000000 (c_tx_window (cfg s)) + default 50000000 (c_drift (cfg s)) ->
  er <> ETooOld /\ forall t, er <> ECreatedInFuture t.
Proof. change 10000000000 with default_tx_window. change 50000000 with default_drift. exact (transfer_window_complete e a s s' er). Qed.
Print Assumptions C14_transfer_time_complete.

Example C14_example :
  let at_time c := mkTransferArg (acct carol) 1 None None (Some c) in
  snd (step (from_ alice 3000000000) (OTransfer [at_time (t0 + 3000000000 + 50000000)]) demo2) = ABatch [Ok 5] /\
  snd (step (from_ alice 3000000000) (OTransfer [at_time (t0 + 3000000001 + 50000000)]) demo2)
    = ABatch [Err (ECreatedInFuture (t0 + 3000000000))] /\
  snd (step (from_ alice 3000000000) (OTransfer [at_time (t0 + 3000000000 - 50000000 - 10000000000)]) demo2)
    = ABatch [Ok 5] /\
  snd (step (from_ alice 3000000000) (OTransfer [at_time (t0 + 3000000000 - 50000000 - 10000000000 - 1)]) demo2)
    = ABatch [Err ETooOld] /\
  snd (step (from_ bob 3000000000) (OTransfer [at_time t0]) demo2) = ABatch [Err EInvalidRecipient] /\
  t0 + 3000000000 + 50000000 < two64.
Proof. splits; vm_compute; reflexivity. Qed.

(** The overflow condition (part of the stated property) is needed: a huge permitted drift wraps and refuses transfers
    made "now". *)
Theorem C14_overflow_condition_needed :
  exists s e a, reachable s /\ ta_created a = None /\
    snd (step e (OTransfer [a]) s) = ABatch [Err (ECreatedInFuture (e_now e))].
Proof.
  pose (u := mkCU None None None None None None None None None None None None (Some (two64 - 1)) None None).
  exists (run (demo2_h ++ [(from_ admin 2500000000, OUpdateCollection u)]) demo0), (from_ alice 3000000000), (xfer carol 1).
  split; [apply demo_reachable|]. split; vm_compute; reflexivity.
Qed.
Print Assumptions C14_overflow_condition_needed.

(** ** C15 *)
Theorem C15_approval_time_window e s s' i c :
  (exists a, step e (OApproveTokens [a]) s = (s', ABatch [Ok i]) /\ c = ai_created (ap_info a)) \/
  (exists a, step e (OApproveCollection [a]) s = (s', ABatch [Ok i]) /\ c = ai_created a) \/
  (exists a, step e (ORevokeTokens [a]) s = (s', ABatch [Ok i]) /\ rv_created a = Some c) \/
  (exists a, step e (ORevokeCollection [a]) s = (s', ABatch [Ok i]) /\ rc_created a = Some c) \/
  (exists a, step e (OTransferFrom [a]) s = (s', ABatch [Ok i]) /\ tf_created a = Some c) ->
  c <= e_now e + default 50000000 (c_drift (cfg s)) /\
  e_now e <= c + default 10000000000 (c_tx_window (cfg s)).
Proof. change 10000000000 with default_tx_window. change 50000000 with default_drift.
  intros H. apply approval_timing_ok.
  destruct H as [(a & H & ->)|[(a & H & ->)|[(a & H & Hc)|[(a & H & Hc)|(a & H & Hc)]]]].
  - eapply approve_window; eauto.
  - eapply approve_coll_window; eauto.
  - eapply revoke_window; eauto.
  - eapply revoke_coll_window; eauto.
  - eapply transfer_from_window; eauto.
Qed.
Print Assumptions C15_approval_time_window.

Example C15_example :
  snd (step (from_ alice 3000000000) (OApproveTokens [appr 1 carol 3000000000 None]) demo2) = ABatch [Ok 5] /\
  snd (step (from_ alice 3000000000) (OApproveTokens [appr 1 carol (3000000001 + 50000000) None]) demo2)
    = ABatch [Err (ECreatedInFuture (t0 + 3000000000))] /\
  snd (step (from_ alice 3000000000) (OApproveCollection [info bob 0 None]) demo2) = ABatch [Ok 5] /\
  snd (step (from_ alice 12000000000) (OApproveCollection [info bob 0 None]) demo2) = ABatch [Err ETooOld] /\
  snd (step (from_ alice 3000000000) (ORevokeTokens [mkRevokeArg None None 1 None (Some t0)]) demo2) = ABatch [Ok 5] /\
  snd (step (from_ alice 3000000000) (ORevokeCollection [mkRevokeCollArg None None None (Some t0)]) demo2) = ABatch [Ok 5] /\
  snd (step (from_ bob 3000000000)
        (OTransferFrom [mkTransferFromArg None (acct alice) (acct carol) 1 None (Some t0)]) demo2) = ABatch [Ok 5].
Proof. splits; vm_compute; reflexivity. Qed.

(** ** C16 *)
Theorem C16_memo_limit e s s' :
  (forall a i m, step e (OTransfer [a]) s = (s', ABatch [Ok i]) -> ta_memo a = Some m ->
     nlen m <= default 1000000 (c_max_memo (cfg s))) /\
  (forall l k r m, step e (OMint l) s = (s', ANat k) -> r ∈ l -> mr_memo r = Some m ->
     nlen m <= default 1000000 (c_max_memo (cfg s))).
Proof. change 1000000 with default_max_memo.
  split.
  - intros a i m H Hm. destruct (transfer_ok_checked _ _ _ _ _ H) as (_ & nft & _ & _ & _ & _ & C & _).
    rewrite Hm in C. apply check_memo_bound. exact C.
  - intros l k r m H Hr Hm. destruct (step_mint _ _ _ _ _ H) as (_ & _ & _ & C & _).
    eapply check_memos_all; eauto.
Qed.
Print Assumptions C16_memo_limit.

Example C16_example :
  let a n := mkTransferArg (acct carol) 1 (Some (repeat 7 n)) None None in
  snd (step (from_ alice 3000000000) (OTransfer [a 10%nat]) demo2) = ABatch [Ok 5] /\
  snd (step (from_ alice 3000000000) (OTransfer [a 11%nat]) demo2) = ABatch [Err (EGeneric 0 "Exceeds Max Memo Size")] /\
  snd (step (from_ admin 0) (OMint [mkMint (acct alice) (Some [1]) []]) demo2) = ANat 4.
Proof. splits; vm_compute; reflexivity. Qed.

(** ** C17 *)
Theorem C17_batch_positional e l s s' bs :
  step e (OTransfer l) s = (s', ABatch bs) -> e_caller e <> anonymous ->
  (default false (c_atomic (cfg s)) = true -> nlen l <= default 100 (c_max_update (cfg s))) ->
  nlen bs = N.min (default 100 (c_max_update (cfg s))) (nlen l) /\
  forall k a b, l !! k = Some a -> bs !! k = Some b ->
    exists sk sk', step e (OTransfer (take k l)) s = (sk, ABatch (take k bs)) /\
                   step e (OTransfer [a]) sk = (sk', ABatch [b]) /\
                   step e (OTransfer (take (S k) l)) s = (sk', ABatch (take (S k) bs)).
Proof. change 100 with default_max_update.
  intros H An At. destruct (transfer_batch_positional _ _ _ _ _ H An At) as [L X].
  split; [|exact X]. unfold nlen at 1. rewrite L. unfold processed. lia.
Qed.
Print Assumptions C17_batch_positional.

(** The outcome of the second item depends on the first: token 1 is no longer alice's. *)
Example C17_example :
  snd (step (from_ alice 3000000000) (OTransfer [xfer carol 1; xfer bob 1; xfer bob 2]) demo2)
    = ABatch [Ok 5; Err EInvalidRecipient; Ok 6] /\ e_caller (from_ alice 3000000000) <> anonymous /\
  default false (c_atomic (cfg demo2)) = false.
Proof. splits; try (vm_compute; reflexivity). discriminate. Qed.

(** ** C18 *)

(** Refuted: with atomic_batch_transfers set the first item succeeds and the second fails. *)
Theorem C18_atomic_refuted :
  exists s e l, reachable s /\ c_atomic (cfg s) = Some true /\
    snd (step e (OTransfer l) s) = ABatch [Ok 5; Err ENonExistingTokenId] /\
    owners (fst (step e (OTransfer l) s)) <> owners s.
Proof.
  pose (u := mkCU None None None None None None None None None None (Some true) None None None None).
  exists (run (demo2_h ++ [(from_ admin 2500000000, OUpdateCollection u)]) demo0), (from_ alice 3000000000),
    [xfer carol 1; xfer carol 77].
  split; [apply demo_reachable|]. split; [vm_compute; reflexivity|]. split; [vm_compute; reflexivity|].
  intros X. apply (f_equal (lookup 1)) in X. revert X. vm_compute. discriminate.
Qed.
Print Assumptions C18_atomic_refuted.

(** What the flag does: a batch over the limit is refused as a whole. Missing: roll-back of partly failing batches. *)
Theorem C18_atomic_oversized_partial e l s :
  c_atomic (cfg s) = Some true -> default 100 (c_max_update (cfg s)) < two32 ->
  default 100 (c_max_update (cfg s)) < nlen l ->
  fst (step e (OTransfer l) s) = s /\
  snd (step e (OTransfer l) s) = ABatch [Err (EGeneric 0 "Exceed Max allowed Update Batch Size")].
Proof. change 100 with default_max_update.
  intros At U L. simpl. unfold icrc7_transfer. destruct l as [|a l0]; [unfold nlen in L; simpl in L; lia|].
  unfold usize_try. rewrite (proj2 (N.ltb_lt _ _) U), At. cbn [default andb from_option].
  rewrite (proj2 (N.ltb_lt _ _) L). cbn. auto.
Qed.
Print Assumptions C18_atomic_oversized_partial.

Example C18_example :
  let u := mkCU None None None None None None (Some 1) None None None (Some true) None None None None in
  let s := fst (step (from_ admin 2500000000) (OUpdateCollection u) demo2) in
  c_atomic (cfg s) = Some true /\ default 100 (c_max_update (cfg s)) < two32 /\
  default 100 (c_max_update (cfg s)) < nlen [xfer carol 1; xfer carol 2].
Proof. splits; vm_compute; reflexivity. Qed.

(** ** C19 *)

(** No six passes on one token within less than 60 ms (60,000,000 ns). *)
Theorem C19_at_most_five_per_window caller url_ok a s0 h tid k p q :
  init caller url_ok a = Some s0 -> times_ok h ->
  passes tid (all_attempts (trace h s0)) !! k = Some p ->
  passes tid (all_attempts (trace h s0)) !! (k + 5)%nat = Some q -> p + 60000000 <= q.
Proof. intros Hi Ht. exact (proj1 (rate_limit caller url_ok a s0 h tid Hi Ht) k p q). Qed.
Print Assumptions C19_at_most_five_per_window.

(** A refusal happens only when five attempts on the same token passed less than 60 ms earlier. *)
Theorem C19_refused_only_if_busy caller url_ok a s0 h tid l1 l2 now :
  init caller url_ok a = Some s0 -> times_ok h ->
  all_attempts (trace h s0) = l1 ++ (now, tid, false) :: l2 ->
  exists p1 p2, passes tid l1 = p1 ++ p2 /\ (5 <= length p2)%nat /\ forall t, t ∈ p2 -> t <= now < t + 60000000.
Proof. intros Hi Ht. exact (proj2 (rate_limit caller url_ok a s0 h tid Hi Ht) l1 l2 now). Qed.
Print Assumptions C19_refused_only_if_busy.

(** Seven attempts on token 1 by a stranger: the sixth is refused, the seventh, 60 ms after the first, passes. *)
Example C19_example :
  let h := demo1_h ++ map (fun dt => (from_ bob dt, OTransfer [xfer carol 1])) [10; 11; 12; 13; 14; 15; 60000010] in
  init admin (fun _ => true) demo_args = Some demo0 /\ times_ok h /\
  all_attempts (trace h demo0) =
    [(t0 + 10, 1, true); (t0 + 11, 1, true); (t0 + 12, 1, true); (t0 + 13, 1, true); (t0 + 14, 1, true);
     (t0 + 15, 1, false); (t0 + 60000010, 1, true)].
Proof.
  splits; [apply demo0_init| |vm_compute; reflexivity].
  unfold times_ok. vm_compute map. repeat constructor; vm_compute; discriminate.
Qed.
