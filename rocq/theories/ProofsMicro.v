(** Every message is a sequence of elementary changes; invariants are proved per elementary change. *)
From Verif Require Import Base ModelPrincipal ModelState ModelIcrc7 ModelIcrc37 ModelManagement ModelLifecycle
  ModelQueries ModelStep ProofsItems ProofsManage.

Inductive micro (e : env) : op -> state -> state -> Prop :=
| mi_quiet o s s' : quiet s s' -> micro e o s s'
| mi_transfer l a nft i s s1 :
    a ∈ l -> quiet s s1 ->
    tokens s !! ta_tid a = Some nft ->
    acc_owner (t_owner nft) = e_caller e -> acc_owner (ta_to a) <> anonymous ->
    akey (t_owner nft) <> akey (ta_to a) ->
    e_caller e <> anonymous ->
    check_memo s (ta_memo a) = Some true ->
    micro e (OTransfer l) s
      (move_token nft (ta_to a)
         (set_log (log s ++ [(i, transfer_tx (e_now e) nft a (default (e_now e) (ta_created a)))]) s1))
| mi_approve l a owner i s s1 :
    a ∈ l -> quiet s s1 ->
    owner_of s (ap_tid a) = Some owner -> akey owner = akey (mkAcc (e_caller e) (ai_from_sub (ap_info a))) ->
    akey (ai_spender (ap_info a)) <> akey anonymous_account ->
    (forall m, tok_appr s !! ap_tid a = Some m -> N.of_nat (size m) < usize_limit (c_max_appr (cfg s))) ->
    micro e (OApproveTokens l) s
      (set_tok_appr (<[ap_tid a := appmap_insert (ai_spender (ap_info a))
                          (new_approval (ap_info a) (mkAcc (e_caller e) (ai_from_sub (ap_info a))) (e_now e))
                          (default ∅ (tok_appr s !! ap_tid a))]> (tok_appr s))
        (set_log (log s ++ [(i, approve_tx "37approve" (e_now e) (Some (ap_tid a))
                                  (mkAcc (e_caller e) (ai_from_sub (ap_info a))) (ap_info a))]) s1))
| mi_approve_coll l a i s s1 :
    a ∈ l -> quiet s s1 ->
    akey (ai_spender a) <> akey anonymous_account -> has_nfts s (e_caller e) = true ->
    (forall m, col_appr s !! akey (mkAcc (e_caller e) (ai_from_sub a)) = Some m ->
       N.of_nat (size m) < usize_limit (c_max_appr (cfg s))) ->
    micro e (OApproveCollection l) s
      (set_col_appr (<[akey (mkAcc (e_caller e) (ai_from_sub a)) :=
                         appmap_insert (ai_spender a) (new_approval a (mkAcc (e_caller e) (ai_from_sub a)) (e_now e))
                             (default ∅ (col_appr s !! akey (mkAcc (e_caller e) (ai_from_sub a))))]> (col_appr s))
        (set_log (log s ++ [(i, approve_tx "37approve_coll" (e_now e) None (mkAcc (e_caller e) (ai_from_sub a)) a)]) s1))
| mi_revoke l a owner m i s s1 :
    a ∈ l -> quiet s s1 ->
    owner_of s (rv_tid a) = Some owner -> akey owner = akey (mkAcc (e_caller e) (rv_from_sub a)) ->
    tok_appr s !! rv_tid a = Some m ->
    micro e (ORevokeTokens l) s
      (set_tok_appr (<[rv_tid a := revoke_from (rv_spender a) m]> (tok_appr s))
        (set_log (log s ++ [(i, revoke_tx "37revoke" (e_now e) (Some (rv_tid a)) (mkAcc (e_caller e) (rv_from_sub a))
                                  (rv_spender a) (rv_memo a) (rv_created a))]) s1))
| mi_revoke_coll l a m i s s1 :
    a ∈ l -> quiet s s1 ->
    col_appr s !! akey (mkAcc (e_caller e) None) = Some m ->
    micro e (ORevokeCollection l) s
      (set_col_appr (<[akey (mkAcc (e_caller e) None) := revoke_from (rc_spender a) m]> (col_appr s))
        (set_log (log s ++ [(i, revoke_tx "37revoke_coll" (e_now e) None (mkAcc (e_caller e) None) (rc_spender a)
                                  (rc_memo a) (rc_created a))]) s1))
| mi_drop l a nft s s1 :
    a ∈ l -> quiet s s1 -> tokens s !! tf_tid a = Some nft ->
    micro e (OTransferFrom l) s
      (drop_both (e_now e) a (mkAcc (e_caller e) (tf_spender_sub a)) (t_owner nft) s1)
| mi_transfer_from l a nft i s s1 :
    a ∈ l -> quiet s s1 ->
    tokens s !! tf_tid a = Some nft ->
    akey (tf_from a) <> akey (tf_to a) -> akey (tf_to a) <> akey anonymous_account ->
    akey (t_owner nft) = akey (tf_from a) ->
    (akey (mkAcc (e_caller e) (tf_spender_sub a)) = akey (tf_from a) \/
     has_valid (e_now e) (tok_appr s !! tf_tid a) (akey (mkAcc (e_caller e) (tf_spender_sub a))) = true \/
     has_valid (e_now e) (col_appr s !! akey (t_owner nft)) (akey (mkAcc (e_caller e) (tf_spender_sub a))) = true) ->
    let s2 := drop_both (e_now e) a (mkAcc (e_caller e) (tf_spender_sub a)) (t_owner nft) s1 in
    let s3 := set_log (log s ++ [(i, transfer_from_tx (e_now e) a (mkAcc (e_caller e) (tf_spender_sub a)))]) s2 in
    let s4 := move_token nft (tf_to a) s3 in
    micro e (OTransferFrom l) s
      (set_col_appr (delete (akey (tf_from a)) (col_appr s4)) (set_tok_appr (delete (tf_tid a) (tok_appr s4)) s4))
| mi_cfg u s :
    guards s = ∅ -> has_permission s (e_caller e) PUpdateCollectionMetadata = true ->
    micro e (OUpdateCollection u) s (set_cfg (apply_update u (cfg s)) s)
| mi_mint_fail l m idxs n s :
    guards s = ∅ -> has_permission s (e_caller e) PMinting = true ->
    mint_metadata (last_id s) l (metas s) = Some m -> (length idxs < length l)%nat ->
    micro e (OMint l) s
      (set_lcalls n (set_log (log s ++ zip idxs (mint_txs (e_now e) (last_id s) l)) (set_metas m s)))
| mi_mint l m idxs n s :
    guards s = ∅ -> has_permission s (e_caller e) PMinting = true ->
    check_memos s l = Some true ->
    N.of_nat (size (tokens s)) + nlen l <= default default_supply_cap (c_supply_cap (cfg s)) ->
    mint_metadata (last_id s) l (metas s) = Some m -> length idxs = length l ->
    micro e (OMint l) s
      (set_by_owner (mint_lists (last_id s) l (by_owner s))
        (set_tokens (mint_tokens (last_id s) l (tokens s)) (set_last_id (last_id s + nlen l)
          (set_lcalls n (set_log (log s ++ zip idxs (mint_txs (e_now e) (last_id s) l)) (set_metas m s))))))
| mi_update_fail tid kvs tok m n s :
    guards s = ∅ -> has_permission s (e_caller e) PUpdateMetadata = true ->
    tokens s !! tid = Some tok -> replace_metadata (t_id tok) kvs (metas s) = Some m ->
    micro e (OUpdateMeta tid kvs) s (set_lcalls n (set_metas m s))
| mi_update tid kvs tok m n i s :
    guards s = ∅ -> has_permission s (e_caller e) PUpdateMetadata = true ->
    tokens s !! tid = Some tok -> replace_metadata (t_id tok) kvs (metas s) = Some m ->
    micro e (OUpdateMeta tid kvs) s
      (set_lcalls n (set_log (log s ++ [(i, update_meta_tx e tid (meta_value tid (metas s)) (meta_value tid m))])
        (set_metas m s)))
| mi_burn tid tok n i s :
    guards s = ∅ -> tokens s !! tid = Some tok -> acc_owner (t_owner tok) = e_caller e ->
    micro e (OBurn tid) s
      (set_tokens (delete tid (tokens s))
            (set_lcalls n (set_log (log s ++ [(i, burn_tx (e_now e) tid tok)]) s)))
| mi_grant p perm s :
    guards s = ∅ -> has_permission s (e_caller e) PManageAuthorities = true ->
    micro e (OGrant p perm) s (set_perms (perm_grant p perm (perms s)) s)
| mi_revoke_perm p perm s :
    guards s = ∅ -> has_permission s (e_caller e) PManageAuthorities = true ->
    micro e (ORevokePerm p perm) s (set_perms (perm_revoke p perm (perms s)) s)
| mi_forget o key u s :
    ((exists k, o = OStoreChunk k) \/ (exists k, o = OFinalize k) \/ (exists k, o = OCancel k)) ->
    guards s = ∅ -> has_permission s (e_caller e) PUpdateUploads = true ->
    files s !! key = Some u -> u_state u <> UFinalized -> u_canister u ∉ subs s ->
    micro e o s (set_files (delete key (files s)) s)
| mi_wait o p s :
    ((exists k z, o = OInitUpload k z) \/ (exists k, o = OStoreChunk k) \/ (exists k, o = OFinalize k) \/
     (exists k, o = OCancel k)) ->
    guards s = ∅ -> has_permission s (e_caller e) PUpdateUploads = true ->
    first_result e s s (inr p) ->
    micro e o s
      (set_next_pend (next_pend s + 1) (set_pend (<[next_pend s := p]> (pend s)) (set_guards {[e_caller e]} s)))
| mi_reply id r p s :
    pend s !! id = Some p ->
    micro e (OReply id r) s
      (set_pend (delete id (pend (fst (continue (e_now e) p r s))))
        (guard_drop (pending_caller p) (fst (continue (e_now e) p r s))))
| mi_upgrade s : micro e OUpgrade s (set_pend ∅ s).

Lemma upgrade_eq s : upgrade s = set_pend ∅ s.
Proof. destruct s as [c]; destruct c; reflexivity. Qed.

(** Sequences of elementary changes of one message. *)
Definition micros (e : env) (o : op) : state -> state -> Prop := rtc (micro e o).

Lemma micros_items {A B} (f : state -> A -> option (state * B)) e o l s s' bs :
  (forall s a s' b, a ∈ l -> f s a = Some (s', b) -> micros e o s s') ->
  run_items f s l = Some (s', bs) -> micros e o s s'.
Proof.
  revert s s' bs. induction l as [|a l IH]; intros s s' bs Hf H; simpl in H.
  - injection H as <- <-. apply rtc_refl.
  - destruct (f s a) as [[s1 b]|] eqn:F; [|discriminate].
    destruct (run_items f s1 l) as [[s2 bs']|] eqn:G; [|discriminate].
    injection H as <- <-. etransitivity; [eapply Hf; [left|exact F]|].
    eapply IH; [|exact G]. intros. eapply Hf; [right|]; eauto.
Qed.

Lemma elem_take_n {A} n (l : list A) x : x ∈ take_n n l -> x ∈ l.
Proof. unfold take_n. intros H. apply elem_of_take in H. destruct H as (i & H & _). eapply elem_of_list_lookup_2; eauto. Qed.

Lemma micro_quiet e o s s' : quiet s s' -> micros e o s s'.
Proof. intros. apply rtc_once. constructor. assumption. Qed.

Theorem step_micros e o s : micros e o s (fst (step e o s)).
Proof.
  destruct o; simpl.
  - (* transfer *)
    unfold icrc7_transfer. destruct args as [|a0 l]; [apply rtc_refl|].
    destruct (usize_try _) as [mx|]; [|apply rtc_refl].
    destruct (_ && _); [apply rtc_refl|].
    destruct (bool_decide (e_caller e = anonymous)) eqn:An; [apply rtc_refl|]. apply bool_decide_eq_false in An.
    destruct (run_items _ _ _) as [[s' bs]|] eqn:R; [|apply rtc_refl]. simpl.
    eapply micros_items; [|exact R]. intros s1 a s1' b Ha Hf.
    apply elem_take_n in Ha.
    destruct (transfer_nft_inv _ _ _ _ _ Hf) as
      [[Q _]|[(nft & n & _ & Q & _)|(nft & i & s2 & _ & Q & (T & O1 & O2 & O3 & CM & _) & ->)]].
    + apply micro_quiet; auto.
    + apply micro_quiet; auto.
    + apply rtc_once. eapply mi_transfer; eauto.
  - unfold icrc37_approve_tokens. destruct (run_items _ _ _) as [[s' bs]|] eqn:R; [|apply rtc_refl]. simpl.
    eapply micros_items; [|exact R]. intros s1 a s1' b Ha Hf.
    destruct (approve_token_inv _ _ _ _ _ Hf) as [[Q _]|(s2 & i & ow & _ & Q & H1 & H2 & H3 & _ & H4 & ->)].
    + apply micro_quiet; auto.
    + apply rtc_once. eapply mi_approve; eauto.
  - unfold icrc37_approve_collection. destruct (run_items _ _ _) as [[s' bs]|] eqn:R; [|apply rtc_refl]. simpl.
    eapply micros_items; [|exact R]. intros s1 a s1' b Ha Hf.
    destruct (approve_collection_inv _ _ _ _ _ Hf) as [[Q _]|(s2 & i & _ & Q & H1 & H2 & _ & H4 & ->)].
    + apply micro_quiet; auto.
    + apply rtc_once. eapply mi_approve_coll; eauto.
  - unfold icrc37_revoke_token_approvals. destruct args as [|a0 l]; [apply rtc_refl|].
    destruct (guard_sliding_window _ _ _) as [s1 pass] eqn:G.
    pose proof (guard_quiet _ _ _ _ _ G) as Q0.
    destruct pass; cbn [negb]; [|apply micro_quiet; exact Q0].
    destruct (run_items _ _ _) as [[s' bs]|] eqn:R; [|apply rtc_refl]. cbn [fst].
    etransitivity; [apply micro_quiet; exact Q0|].
    eapply micros_items; [|exact R]. intros s2 a s2' b Ha Hf. apply elem_take_n in Ha.
    destruct (revoke_token_inv _ _ _ _ _ Hf) as [[Q _]|(s3 & i & ow & m & _ & Q & H1 & H2 & H3 & _ & ->)].
    + apply micro_quiet; auto.
    + apply rtc_once. eapply mi_revoke; eauto.
  - unfold icrc37_revoke_collection_approvals. destruct (run_items _ _ _) as [[s' bs]|] eqn:R; [|apply rtc_refl]. simpl.
    eapply micros_items; [|exact R]. intros s2 a s2' b Ha Hf. apply elem_take_n in Ha.
    destruct (revoke_collection_inv _ _ _ _ _ Hf) as [[Q _]|(s3 & i & m & _ & Q & H1 & _ & ->)].
    + apply micro_quiet; auto.
    + apply rtc_once. eapply mi_revoke_coll; eauto.
  - unfold icrc37_transfer_from. destruct (run_items _ _ _) as [[s' bs]|] eqn:R; [|apply rtc_refl]. simpl.
    eapply micros_items; [|exact R]. intros s2 a s2' b Ha Hf.
    destruct (transfer_from_inv _ _ _ _ _ Hf) as
      [[Q _]|[(nft & s3 & er & _ & Q & T & ->)|(nft & s3 & i & _ & Q & T & _ & H1 & H2 & H3 & H4 & ->)]].
    + apply micro_quiet; auto.
    + apply rtc_once. eapply mi_drop; eauto.
    + apply rtc_once. eapply mi_transfer_from; eauto.
  - unfold update_collection_metadata, with_permission.
    destruct (has_permission _ _ _) eqn:P; [|apply rtc_refl].
    rewrite (with_lock_eq _ _ _ (commutes_cfg u)).
    destruct (decide _); [|apply rtc_refl]. apply rtc_once. apply mi_cfg; auto.
  - unfold mint, with_permission.
    destruct (has_permission _ _ _) eqn:P; [|apply rtc_refl].
    rewrite (with_lock_eq _ _ _ (commutes_mint e reqs)).
    destruct (decide _); [|apply rtc_refl].
    destruct (mint_body e reqs s) as [[s' r]|] eqn:M; [|apply rtc_refl].
    destruct (mint_body_inv _ _ _ _ _ M) as
      [(-> & er & -> & _)|(CM & _ & Cap & m & idxs & n & Me & [(msg & -> & Hl & ->)|(-> & Hl & ->)])].
    + apply rtc_refl.
    + apply rtc_once. eapply mi_mint_fail; eauto.
    + apply rtc_once. eapply mi_mint; eauto.
  - unfold update_nft_metadata, with_permission.
    destruct (has_permission _ _ _) eqn:P; [|apply rtc_refl].
    rewrite (with_lock_eq _ _ _ (commutes_update e tid kvs)).
    destruct (decide _); [|apply rtc_refl].
    destruct (update_nft_metadata_body e tid kvs s) as [[s' r]|] eqn:M; [|apply rtc_refl].
    destruct (update_body_inv _ _ _ _ _ _ M) as
      [(-> & -> & _)|(tok & m & n & T & Me & [(msg & -> & ->)|(i & -> & ->)])].
    + apply rtc_refl.
    + apply rtc_once. eapply mi_update_fail; eauto.
    + apply rtc_once. eapply mi_update; eauto.
  - unfold burn_nft. rewrite (with_lock_eq _ _ _ (commutes_burn e tid)).
    destruct (decide _); [|apply rtc_refl].
    destruct (burn_body e tid s) as [[s' r]|] eqn:M; [|apply rtc_refl].
    destruct (burn_body_inv _ _ _ _ _ M) as [(Q & er & ->)|(tok & i & n & -> & T & O & ->)].
    + apply micro_quiet; auto.
    + apply rtc_once. eapply mi_burn; eauto.
  - unfold grant_permission, with_permission.
    destruct (has_permission _ _ _) eqn:P; [|apply rtc_refl].
    rewrite (with_lock_eq _ _ _ (commutes_perm (perm_grant p perm))).
    destruct (decide _); [|apply rtc_refl]. apply rtc_once. apply mi_grant; auto.
  - unfold revoke_permission, with_permission.
    destruct (has_permission _ _ _) eqn:P; [|apply rtc_refl].
    rewrite (with_lock_eq _ _ _ (commutes_perm (perm_revoke p perm))).
    destruct (decide _); [|apply rtc_refl]. apply rtc_once. apply mi_revoke_perm; auto.
  - unfold init_upload. destruct (upload_entry _ _ _) as [s' u] eqn:U.
    assert (fst (ans_upload (s', u)) = s') as -> by (destruct u as [[| |]|]; reflexivity).
    apply upload_entry_inv in U; [|apply init_first_guards].
    destruct U as [(-> & _)|(G & P & [(er & F & _)|(s1 & p & F & _ & ->)])].
    + apply rtc_refl.
    + pose proof (init_first_inv _ _ _ _ _ _ F) as R. inversion R; subst; try apply rtc_refl.
      exfalso. clear R. unfold init_upload_first in F. destruct (contains_path _ _); [discriminate|].
      destruct (_ <? _); discriminate.
    + pose proof (init_first_inv _ _ _ _ _ _ F) as R.
      assert (s1 = s) as -> by (inversion R; subst; auto).
      apply rtc_once. apply mi_wait; eauto.
  - unfold store_chunk. destruct (upload_entry _ _ _) as [s' u] eqn:U.
    assert (fst (ans_upload (s', u)) = s') as -> by (destruct u as [[| |]|]; reflexivity).
    apply upload_entry_inv in U; [|apply store_first_guards].
    destruct U as [(-> & _)|(G & P & [(er & F & _)|(s1 & p & F & _ & ->)])].
    + apply rtc_refl.
    + pose proof (store_first_inv _ _ _ _ _ F) as R. inversion R; subst; try apply rtc_refl.
      apply rtc_once. eapply mi_forget; eauto.
    + pose proof (store_first_inv _ _ _ _ _ F) as R.
      assert (s1 = s) as -> by (inversion R; subst; auto).
      apply rtc_once. apply mi_wait; eauto.
  - unfold finalize_upload. destruct (upload_entry _ _ _) as [s' u] eqn:U.
    assert (fst (ans_upload (s', u)) = s') as -> by (destruct u as [[| |]|]; reflexivity).
    apply upload_entry_inv in U; [|apply finalize_first_guards].
    destruct U as [(-> & _)|(G & P & [(er & F & _)|(s1 & p & F & _ & ->)])].
    + apply rtc_refl.
    + pose proof (finalize_first_inv _ _ _ _ _ F) as R. inversion R; subst; try apply rtc_refl.
      apply rtc_once. eapply mi_forget; eauto.
    + pose proof (finalize_first_inv _ _ _ _ _ F) as R.
      assert (s1 = s) as -> by (inversion R; subst; auto).
      apply rtc_once. apply mi_wait; eauto 10.
  - unfold cancel_upload. destruct (upload_entry _ _ _) as [s' u] eqn:U.
    assert (fst (ans_upload (s', u)) = s') as -> by (destruct u as [[| |]|]; reflexivity).
    apply upload_entry_inv in U; [|apply cancel_first_guards].
    destruct U as [(-> & _)|(G & P & [(er & F & _)|(s1 & p & F & _ & ->)])].
    + apply rtc_refl.
    + pose proof (cancel_first_inv _ _ _ _ _ F) as R. inversion R; subst; try apply rtc_refl.
      apply rtc_once. eapply mi_forget; eauto.
    + pose proof (cancel_first_inv _ _ _ _ _ F) as R.
      assert (s1 = s) as -> by (inversion R; subst; auto).
      apply rtc_once. apply mi_wait; eauto 10.
  - unfold resume. destruct (pend s !! id) as [p|] eqn:P; [|apply rtc_refl].
    destruct (continue (e_now e) p r s) as [s1 a] eqn:C.
    assert (E : s1 = fst (continue (e_now e) p r s)) by (rewrite C; reflexivity).
    destruct a as [[| |]|]; cbn [fst]; rewrite E; apply rtc_once, mi_reply, P.
  - rewrite upgrade_eq. apply rtc_once. apply mi_upgrade.
Qed.

(** Invariants and preorders from elementary changes to steps and histories. *)
Lemma micros_ind (P : state -> Prop) (R : state -> state -> Prop) e o :
  (forall s, R s s) -> (forall a b c, R a b -> R b c -> R a c) ->
  (forall s s', P s -> micro e o s s' -> P s' /\ R s s') ->
  forall s s', P s -> micros e o s s' -> P s' /\ R s s'.
Proof.
  intros Rr Rt Hm s s' HP H. induction H as [s|s s1 s2 Hm1 _ IH]; [auto|].
  destruct (Hm _ _ HP Hm1) as [HP1 HR1]. destruct (IH HP1) as [HP2 HR2]. eauto.
Qed.

Lemma step_inv (P : state -> Prop) e o s :
  (forall s s', P s -> micro e o s s' -> P s') -> P s -> P (fst (step e o s)).
Proof.
  intros H HP. eapply (micros_ind P (fun _ _ => True) e o); eauto using step_micros.
Qed.

Lemma step_rel (P : state -> Prop) (R : state -> state -> Prop) e o s :
  (forall s, R s s) -> (forall a b c, R a b -> R b c -> R a c) ->
  (forall s s', P s -> micro e o s s' -> P s' /\ R s s') ->
  P s -> R s (fst (step e o s)).
Proof. intros. eapply (micros_ind P R e o); eauto using step_micros. Qed.

Lemma run_inv (P : state -> Prop) h s :
  (forall e o s s', P s -> micro e o s s' -> P s') -> P s -> P (run h s).
Proof.
  intros H. revert s. induction h as [|[e o] h IH]; intros s HP; simpl; [auto|].
  apply IH. apply step_inv; eauto.
Qed.

Lemma run_app h1 h2 s : run (h1 ++ h2) s = run h2 (run h1 s).
Proof. revert s. induction h1 as [|[e o] h IH]; intros s; simpl; auto. Qed.
