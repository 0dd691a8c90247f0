(** C107-C118: promises of the token standards and of the reported settings, tested against all states. *)
From Verif Require Import Base ModelPrincipal ModelState ModelIcrc7 ModelIcrc37 ModelManagement ModelLifecycle
  ModelQueries ModelStep ProofsItems ProofsManage ProofsMicro Spec ProofsCore ProofsOwner ProofsTime ProofsLog ProofsRate
  ProofsApprovals ProofsQueries ProofsLock Scenario PropertiesLedger PropertiesApprovals PropertiesBatch PropertiesLive
  PropertiesUploadLive PropertiesLift.

(** ** C107 *)

(** Refuted: a transfer that names subaccount [sub7] takes alice's token out of her default account. *)
Theorem C107_transfer_from_named_account_refuted :
  exists s e a ow, reachable s /\ owner_of s (ta_tid a) = Some ow /\
    akey ow <> akey (mkAcc (e_caller e) (ta_from_sub a)) /\
    snd (step e (OTransfer [a]) s) = ABatch [Ok 5] /\ owner_of (fst (step e (OTransfer [a]) s)) (ta_tid a) = Some (ta_to a).
Proof.
  exists demo2, (from_ alice 3000000000), (mkTransferArg (acct carol) 1 None (Some sub7) None), (acct alice).
  split; [apply demo_reachable|]. split; [vm_compute; reflexivity|]. split; [vm_compute; discriminate|].
  split; vm_compute; reflexivity.
Qed.
Print Assumptions C107_transfer_from_named_account_refuted.

(** The same transfer from another subaccount. *)
Definition same_but_subaccount (a b : transfer_arg) : Prop :=
  ta_to a = ta_to b /\ ta_tid a = ta_tid b /\ ta_memo a = ta_memo b /\ ta_created a = ta_created b.

Lemma run_items_ext {A B} (f : state -> A -> option (state * B)) (R : A -> A -> Prop) l l' :
  (forall s a b, R a b -> f s a = f s b) -> Forall2 R l l' -> forall s, run_items f s l = run_items f s l'.
Proof.
  intros H F. induction F as [|a b l l' Hab F IH]; intros s; [reflexivity|].
  cbn [run_items]. rewrite (H s a b Hab). destruct (f s b) as [[s1 r]|]; [|reflexivity]. rewrite IH. reflexivity.
Qed.

Lemma transfer_nft_sub e s a b : same_but_subaccount a b -> transfer_nft e s a = transfer_nft e s b.
Proof.
  intros (E1 & E2 & E3 & E4). unfold transfer_nft, transfer_tx. rewrite E1, E2, E3, E4. reflexivity.
Qed.

(** The subaccounts named in a batch of transfers make no difference at all; what counts is that the caller's principal owns the
    token (C04, C09).  Missing: that the account named owns it. *)
Theorem C107_subaccount_ignored_partial e s l l' :
  Forall2 same_but_subaccount l l' -> step e (OTransfer l) s = step e (OTransfer l') s.
Proof.
  intros F. simpl. unfold icrc7_transfer. assert (Len : nlen l = nlen l') by (unfold nlen; rewrite (Forall2_length _ _ _ F); reflexivity).
  destruct F as [|a b l0 l0' Hab F]; [reflexivity|]. rewrite Len.
  destruct (usize_try _) as [mx|]; [|reflexivity]. destruct (_ && _); [reflexivity|]. destruct (bool_decide _); [reflexivity|].
  rewrite (run_items_ext (transfer_nft e) same_but_subaccount (take_n mx (a :: l0)) (take_n mx (b :: l0'))); [reflexivity| |].
  - intros. apply transfer_nft_sub. assumption.
  - rewrite !take_n_take. apply Forall2_take. constructor; assumption.
Qed.
Print Assumptions C107_subaccount_ignored_partial.

Example C107_example :
  Forall2 same_but_subaccount [xfer carol 1; xfer carol 2]
    [mkTransferArg (acct carol) 1 None (Some sub7) None; mkTransferArg (acct carol) 2 None (Some []) None] /\
  snd (step (from_ alice 3000000000) (OTransfer [xfer carol 1; xfer carol 2]) demo2) = ABatch [Ok 5; Ok 6].
Proof. split; [repeat constructor|vm_compute; reflexivity]. Qed.

(** ** C108 *)

(** Blocks longer in their memo than the limit that the collection reports. *)
Definition memo_over (s : state) (t : tx) : Prop :=
  exists m, tx_memo t = Some m /\ default 1000000 (c_max_memo (cfg s)) < nlen m.

(** A memo of eleven bytes; the limit of the demonstration collection is ten. *)
Definition memo11 : bytes := repeat 7 11.

(** Refuted: the five calls of ICRC-37 log memos of any length. *)
Theorem C108_memo_limit_refuted :
  forall o, o ∈ [OApproveTokens [mkApproveArg 1 (mkInfo (acct carol) None None (Some memo11) (t0 + 3000000000))];
                 OApproveCollection [mkInfo (acct bob) None None (Some memo11) (t0 + 3000000000)];
                 ORevokeTokens [mkRevokeArg None None 1 (Some memo11) None];
                 ORevokeCollection [mkRevokeCollArg None None (Some memo11) None];
                 OTransferFrom [mkTransferFromArg None (acct alice) (acct bob) 1 (Some memo11) None]] ->
  reachable demo2 /\ icrc7_max_memo_size demo2 = Some 10 /\
  snd (step (from_ alice 3000000000) o demo2) = ABatch [Ok 5] /\
  exists x, last (log (fst (step (from_ alice 3000000000) o demo2))) = Some x /\ memo_over demo2 (snd x).
Proof.
  intros o H. split; [apply demo_reachable|]. split; [vm_compute; reflexivity|].
  repeat (apply elem_of_cons in H; destruct H as [->|H]); [..|apply elem_of_nil in H; contradiction];
    (split; [vm_compute; reflexivity|]);
    (eexists; split; [vm_compute; reflexivity|]); exists memo11; split; vm_compute; reflexivity.
Qed.
Print Assumptions C108_memo_limit_refuted.

(** Transfers by owners and mints log no memo above the limit.  Missing: the calls of ICRC-37. *)
Theorem C108_memo_limit_partial e o s :
  (exists l, o = OTransfer l) \/ (exists l, o = OMint l) ->
  exists new, log (fst (step e o s)) = log s ++ new /\ forall x, x ∈ new -> ~ memo_over s (snd x).
Proof.
  intros [[l ->]|[l ->]].
  - set (P := fun s1 => cfg s1 = cfg s).
    set (R := fun a b => P a -> cfg b = cfg a /\ exists new, log b = log a ++ new /\ forall x, x ∈ new -> ~ memo_over s (snd x)).
    assert (X : R s (fst (step e (OTransfer l) s))).
    { apply (step_rel P R).
      - intros a _. split; [reflexivity|]. exists []. rewrite app_nil_r. split; [reflexivity|]. intros x Hx. apply elem_of_nil in Hx. contradiction.
      - intros a b c H1 H2 Pa. destruct (H1 Pa) as (C1 & n1 & E1 & F1).
        destruct (H2 ltac:(unfold P in *; congruence)) as (C2 & n2 & E2 & F2).
        split; [congruence|]. exists (n1 ++ n2). rewrite E2, E1, app_assoc. split; [reflexivity|].
        intros x Hx. apply elem_of_app in Hx. destruct Hx; auto.
      - intros a b Pa M. inversion M as [? ? ? Q|? ta nft i ? a1 H1 Q T O1 O2 O3 An CM| | | | | | | | | | | | | | | | | |]; subst;
          [| |exfalso; naive_solver..].
        + open_quiet. simpl. split; [exact Pa|]. intros _. split; [reflexivity|]. exists []. simpl. rewrite app_nil_r.
          split; [reflexivity|]. intros x Hx. apply elem_of_nil in Hx. contradiction.
        + open_quiet. simpl. split; [exact Pa|]. intros _. split; [reflexivity|]. eexists. split; [reflexivity|].
          intros x Hx. apply elem_of_list_singleton in Hx as ->. intros (m & E & L). simpl in E.
          rewrite E in CM. apply check_memo_bound in CM. unfold P in Pa. simpl in Pa. rewrite <- Pa in L.
          change 1000000 with default_max_memo in L. simpl in CM. lia.

      - reflexivity. }
    destruct (X eq_refl) as (_ & new & E & F). eauto.
  - simpl. unfold mint, with_permission.
    assert (No : exists new, log s = log s ++ new /\ forall x, x ∈ new -> ~ memo_over s (snd x)).
    { exists []. rewrite app_nil_r. split; [reflexivity|]. intros x Hx. apply elem_of_nil in Hx. contradiction. }
    destruct (has_permission _ _ _); [|exact No].
    rewrite (with_lock_eq _ _ _ (commutes_mint e l)). destruct (decide _); [|exact No].
    destruct (mint_body e l s) as [[s' r]|] eqn:B; [|exact No].
    assert (Z : forall (idxs : list N) (x : N * tx), check_memos s l = Some true -> x ∈ zip idxs (mint_txs (e_now e) (last_id s) l) -> ~ memo_over s (snd x)).
    { intros idxs [ix t] CM Hx (m & E & L). simpl in E. apply elem_of_zip_r in Hx. apply elem_of_list_lookup in Hx. destruct Hx as [k Hk].
      assert (Lk : (k < length l)%nat) by (apply lookup_lt_Some in Hk; rewrite mint_txs_length in Hk; exact Hk).
      apply lookup_lt_is_Some in Lk. destruct Lk as [r0 Hr]. rewrite (mint_txs_lookup _ _ _ _ _ Hr) in Hk. injection Hk as Hk.
      rewrite <- Hk in E.
      pose proof (check_memos_all s l r0 m CM (elem_of_list_lookup_2 _ _ _ Hr) E) as X. change 1000000 with default_max_memo in L. lia. }
    destruct (mint_body_inv _ _ _ _ _ B) as
      [(-> & er & -> & _)|(CM & _ & _ & m & idxs & n & _ & [(msg & -> & _ & ->)|(-> & _ & ->)])]; simpl; [exact No| |];
      (eexists; split; [reflexivity|]; intros x Hx; eapply Z; eauto).
Qed.
Print Assumptions C108_memo_limit_partial.

Example C108_example :
  snd (step (from_ alice 3000000000) (OTransfer [mkTransferArg (acct bob) 1 (Some memo11) None None;
                                                 mkTransferArg (acct bob) 2 (Some [1; 2]) None None]) demo2)
    = ABatch [Err (EGeneric 0 "Exceeds Max Memo Size"); Ok 5].
Proof. vm_compute. reflexivity. Qed.

(** ** C109 *)

(** Refuted: an approval that expired long before the call is accepted, logged and listed. *)
Theorem C109_expired_refused_refuted :
  exists s e a x, reachable s /\ ai_expires (ap_info a) = Some x /\ x < e_now e /\
    snd (step e (OApproveTokens [a]) s) = ABatch [Ok 5] /\
    map ai_expires (icrc37_get_token_approvals (fun l => l) (fst (step e (OApproveTokens [a]) s)) (ap_tid a) None None) = [Some x].
Proof.
  exists demo2, (from_ alice 3000000000), (appr 2 bob 3000000000 (Some 1)), 1.
  split; [apply demo_reachable|]. split; [reflexivity|]. split; [vm_compute; reflexivity|].
  split; vm_compute; reflexivity.
Qed.
Print Assumptions C109_expired_refused_refuted.

(** Such an approval authorizes nothing, now or later, and replaces the spender's earlier approval: whoever gives it takes the
    approval away.  Missing: the refusal. *)
Theorem C109_expired_authorizes_nothing_partial e a s s' i x :
  step e (OApproveTokens [a]) s = (s', ABatch [Ok i]) ->
  ai_expires (ap_info a) = Some x -> x <= e_now e ->
  forall sp now, akey sp = akey (ai_spender (ap_info a)) -> e_now e <= now -> ~ token_approved s' (ap_tid a) sp now.
Proof.
  intros H Hx Hl sp now Hk Hn (m & k & ap & E1 & E2 & E3).
  destruct (approve_ok_effect _ _ _ _ _ H) as (_ & _ & _ & T). specialize (T (ap_tid a) sp).
  unfold token_approval in T. rewrite E1, E2, decide_True in T by auto. simpl in T. injection T as ->.
  simpl in E3. rewrite Hx in E3. lia.
Qed.
Print Assumptions C109_expired_authorizes_nothing_partial.

(** bob's unlimited approval on token 1 is overwritten by an expired one and bob can no longer move the token. *)
Example C109_example :
  let r := step (from_ alice 3000000000) (OApproveTokens [appr 1 bob 3000000000 (Some 1)]) demo2 in
  snd r = ABatch [Ok 5] /\
  snd (step (from_ bob 4000000000) (OTransferFrom [tfrom alice bob 1]) demo2) = ABatch [Ok 5] /\
  snd (step (from_ bob 4000000000) (OTransferFrom [tfrom alice bob 1]) (fst r)) = ABatch [Err EUnauthorized].
Proof. splits; vm_compute; reflexivity. Qed.

(** ** C110 *)

(** Refuted: alice approves herself, gives the token to bob and takes it back. *)
Theorem C110_gift_is_final_refuted :
  exists s e1 e2 t, reachable s /\ owner_of s t = Some (acct alice) /\ e_caller e1 = alice /\ e_caller e2 = alice /\
    let s1 := fst (step e1 (OTransfer [xfer bob t]) s) in
    owner_of s1 t = Some (acct bob) /\
    owner_of (fst (step e2 (OTransferFrom [tfrom bob alice t]) s1)) t = Some (acct alice).
Proof.
  exists (run (demo1_h ++ [(from_ alice 1000000000, OApproveTokens [appr 1 alice 1000000000 None])]) demo0),
    (from_ alice 2000000000), (from_ alice 3000000000), 1.
  split; [apply demo_reachable|]. splits; vm_compute; reflexivity.
Qed.
Print Assumptions C110_gift_is_final_refuted.

(** Who has no approval of their own on the token and none on the recipient's collection cannot take it back.  Missing: the
    approvals given before the transfer (C06). *)
Theorem C110_gift_is_final_partial e a s s' i e2 o :
  reachable s -> step e (OTransfer [a]) s = (s', ABatch [Ok i]) -> (forall k t, e_log e k t <> LDup i) ->
  e_caller e2 = e_caller e -> acc_owner (ta_to a) <> e_caller e ->
  (forall sub, ~ token_approved s (ta_tid a) (mkAcc (e_caller e) sub) (e_now e2)) ->
  (forall sub, ~ collection_approved s (ta_to a) (mkAcc (e_caller e) sub) (e_now e2)) ->
  owner_of (fst (step e2 o s')) (ta_tid a) = Some (ta_to a).
Proof.
  intros Hr H Hd Hc Hto T C.
  destruct (C09_transfer_exact_partial _ _ _ _ _ Hr H Hd) as (ow & _ & _ & O & _).
  specialize (O (ta_tid a)). rewrite decide_True in O by reflexivity.
  destruct (C06_transfer_keeps_approvals_partial _ _ _ _ _ Hr H) as [E1 E2].
  destruct (decide (owner_of (fst (step e2 o s')) (ta_tid a) = Some (ta_to a))) as [E|Hn]; [exact E|exfalso].
  pose proof (step_reachable _ _ _ _ _ Hr H) as Hr'.
  destruct (C04_only_entitled_move e2 o s' (ta_tid a) (ta_to a) Hr' O Hn) as [E|(l & b & _ & _ & _ & [E|E])].
  - congruence.
  - rewrite Hc in E. unfold token_approved in *. rewrite E1 in E. exact (T _ E).
  - rewrite Hc in E. unfold collection_approved in *. rewrite E2 in E. exact (C _ E).
Qed.
Print Assumptions C110_gift_is_final_partial.

Example C110_example :
  let s1 := fst (step (from_ alice 3000000000) (OTransfer [xfer carol 2]) demo2) in
  snd (step (from_ alice 3000000000) (OTransfer [xfer carol 2]) demo2) = ABatch [Ok 5] /\
  (forall sub, ~ token_approved demo2 2 (mkAcc alice sub) (t0 + 4000000000)) /\
  (forall sub, ~ collection_approved demo2 (acct carol) (mkAcc alice sub) (t0 + 4000000000)) /\
  snd (step (from_ alice 4000000000) (OTransferFrom [tfrom carol alice 2]) s1) = ABatch [Err EUnauthorized].
Proof.
  assert (E1 : tok_appr demo2 !! 2 = None) by (vm_compute; reflexivity).
  assert (E2 : col_appr demo2 !! akey (acct carol) = None) by (vm_compute; reflexivity).
  splits; [vm_compute; reflexivity| | |vm_compute; reflexivity].
  - intros sub (m & k & ap & E & _). congruence.
  - intros sub (m & k & ap & E & _). congruence.
Qed.

(** ** C111 *)

(** An installation that allows one approval per token. *)
Definition one_approval : init_args :=
  mkInit false {[admin := all_permissions]} None "SYM" "Name" None (Some 100) None None None None (Some 10) None
         None None None [] (Some 1) None.

(** Refuted: bob's approval is about to expire; alice cannot prolong it. *)
Theorem C111_renew_refuted :
  exists s e a ap, reachable s /\ owner_of s (ap_tid a) = Some (mkAcc (e_caller e) (ai_from_sub (ap_info a))) /\
    token_approval s (ap_tid a) (ai_spender (ap_info a)) = Some ap /\
    snd (step e (OApproveTokens [a]) s) = ABatch [Err (EGeneric 1 "Maximum approvals per token exceeded")].
Proof.
  exists (run [(from_ admin 0, mint3); (from_ alice 1000000000, OApproveTokens [appr 1 bob 1000000000 (Some (t0 + 5000000000))])]
            (demo_init one_approval)),
    (from_ alice 2000000000), (appr 1 bob 2000000000 (Some (t0 + 9000000000))).
  eexists. split.
  { exists admin, (fun _ => true), one_approval, (demo_init one_approval). eexists. split; reflexivity. }
  splits; vm_compute; reflexivity.
Qed.
Print Assumptions C111_renew_refuted.

(** Below the limit a listed spender's approval is replaced, and no other approval is touched.  Missing: at the limit (the answer
    there is the one above: C92). *)
Theorem C111_renew_partial e a s s' i ap :
  step e (OApproveTokens [a]) s = (s', ABatch [Ok i]) ->
  token_approval s (ap_tid a) (ai_spender (ap_info a)) = Some ap ->
  token_approval s' (ap_tid a) (ai_spender (ap_info a)) =
    Some (mkAppr (ai_spender (ap_info a)) (mkAcc (e_caller e) (ai_from_sub (ap_info a))) (ai_expires (ap_info a)) (e_now e)
                 (ai_memo (ap_info a))) /\
  length (approvals_on s' (ap_tid a)) = length (approvals_on s (ap_tid a)) /\
  (forall t sp, ~ (t = ap_tid a /\ akey sp = akey (ai_spender (ap_info a))) -> token_approval s' t sp = token_approval s t sp).
Proof.
  intros H Hap. destruct (approve_ok_effect _ _ _ _ _ H) as (_ & _ & _ & T). split; [|split].
  - rewrite T, decide_True by auto. reflexivity.
  - revert H. simpl. unfold icrc37_approve_tokens. cbn [run_items].
    destruct (approve_token e s a) as [[s1 b]|] eqn:F; simpl; [|discriminate]. intros [= <- ->].
    destruct (approve_token_inv _ _ _ _ _ F) as [[Q [er X]]|(s2 & j & ow & [= <-] & Q & _ & _ & _ & _ & _ & ->)]; [discriminate|].
    open_quiet. unfold approvals_on, token_approval in *. simpl in *. rewrite lookup_insert.
    destruct (tok_appr s !! ap_tid a) as [m|]; [|discriminate]. simpl.
    destruct (m !! akey (ai_spender (ap_info a))) as [[k0 ap0]|] eqn:E; [|discriminate].
    rewrite !map_length. unfold appmap_insert. rewrite E.
    apply (map_size_insert_Some (akey (ai_spender (ap_info a))) (k0, new_approval (ap_info a) (mkAcc (e_caller e) (ai_from_sub (ap_info a))) (e_now e)) m).
    rewrite E. eauto.
  - intros t sp Hn. rewrite T, decide_False by exact Hn. reflexivity.
Qed.
Print Assumptions C111_renew_partial.

(** bob's unlimited approval on token 1 gets an end. *)
Example C111_example :
  snd (step (from_ alice 3000000000) (OApproveTokens [appr 1 bob 3000000000 (Some (t0 + 5000000000))]) demo2) = ABatch [Ok 5] /\
  exists ap, token_approval demo2 1 (acct bob) = Some ap /\ a_expires ap = None.
Proof. split; [vm_compute; reflexivity|]. eexists. split; vm_compute; reflexivity. Qed.


(** ** C112 *)

(** Refuted: after alice burned token 1, bob's approval on it is still listed and confirmed, and its metadata are still stored. *)
Theorem C112_burn_leaves_nothing_refuted :
  exists s e t, reachable s /\ snd (step e (OBurn t) s) = AOk /\
    let s' := fst (step e (OBurn t) s) in
    owner_of s' t = None /\
    map ai_spender (icrc37_get_token_approvals (fun l => l) s' t None None) = [acct bob] /\
    icrc37_is_approved s' (e_now e) [mkIsApproved (acct bob) None t] = [true] /\
    meta_of s' t "a" = Some (VNat 1).
Proof.
  exists demo2, (from_ alice 3000000000), 1. split; [apply demo_reachable|]. splits; vm_compute; reflexivity.
Qed.
Print Assumptions C112_burn_leaves_nothing_refuted.

Lemma minted_after h s t : t ∈ all_minted (trace h s) -> last_id s <= t.
Proof. destruct (minted_trace h s) as [M _]. intros H. rewrite M, count_from_elem in H. lia. Qed.

(** A burned token is gone for ever as far as the queries of ICRC-7 tell: no owner, no metadata, in no listing, whatever happens
    later.  Missing: its approvals and what is stored about it. *)
Theorem C112_burned_gone_partial e t s s' h :
  reachable s -> step e (OBurn t) s = (s', AOk) ->
  let s2 := run h s' in
  owner_of s2 t = None /\
  (forall x, icrc7_token_metadata s2 [t] = Some x -> x = [None]) /\
  (forall prev tk l, icrc7_tokens s2 prev tk = Some l -> t ∉ l) /\
  (forall a prev tk l, icrc7_tokens_of s2 a prev tk = Some l -> t ∉ l).
Proof.
  intros Hr H s2. pose proof (reachable_wf _ Hr) as W.
  destruct (step_burn _ _ _ _ H) as (_ & tok & i & n & T & _ & E).
  assert (W' : wf s') by (pose proof (step_wf e (OBurn t) s W) as X; rewrite H in X; exact X).
  assert (G : tokens s2 !! t = None).
  { destruct (tokens s2 !! t) as [y|] eqn:Y; [exfalso|reflexivity].
    assert (X : is_Some (tokens (run h s') !! t)) by (exists y; exact Y).
    apply (exists_trace h s' t W') in X. destruct X as [[[z Z]|X] _].
    - rewrite E in Z. simpl in Z. rewrite lookup_delete in Z. discriminate.
    - apply minted_after in X. pose proof (wf_lt _ W _ _ T). rewrite E in X. simpl in X. lia. }
  split; [rewrite owner_of_tokens, G; reflexivity|]. split.
  - unfold icrc7_token_metadata, batch_query. intros x. destruct (_ <? _); [discriminate|]. cbn [map]. rewrite G. intros [= <-]. reflexivity.
  - assert (P : forall ids prev n l, page_of ids prev n = l -> t ∉ ids -> t ∉ l).
    { intros ids prev m l <- Hn Hin. apply Hn. unfold page_of in Hin. apply elem_take_n in Hin. apply elem_of_list_In in Hin.
      assert (D : forall k (L : list N), List.In t (skipn k L) -> List.In t L).
      { induction k as [|k IHk]; intros [|y L]; simpl; auto. }
      apply D, elem_of_list_In in Hin. rewrite merge_sort_Permutation in Hin. exact Hin. }
    split.
    + intros prev tk l. unfold icrc7_tokens. destruct (take_ok s2 tk); [|discriminate]. intros [= El]. eapply P; [exact El|].
      intros X. apply elem_of_list_fmap in X. destruct X as ([k y] & -> & X). apply elem_of_map_to_list in X. simpl in G. congruence.
    + intros a prev tk l. unfold icrc7_tokens_of. destruct (take_ok s2 tk); [|discriminate]. intros [= El]. eapply P; [exact El|].
      intros X. apply (account_ids_spec s2 a) in X. destruct X as (ow & X & _). rewrite owner_of_tokens, G in X. discriminate.
Qed.
Print Assumptions C112_burned_gone_partial.

Example C112_example :
  step (from_ alice 3000000000) (OBurn 1) demo2 = (fst (step (from_ alice 3000000000) (OBurn 1) demo2), AOk) /\
  let s2 := run [(from_ admin 4000000000, mint3)] (fst (step (from_ alice 3000000000) (OBurn 1) demo2)) in
  icrc7_tokens s2 None None = Some [2; 3; 4; 5; 6] /\ icrc7_owner_of s2 [1; 4] = Some [None; Some (acct alice)].
Proof. split; [apply snd_pair; vm_compute; reflexivity|split; vm_compute; reflexivity]. Qed.

(** ** C113 *)

(** Refuted: an empty revocation traps, and after a setting that the administrators may choose transfers trap. *)
Theorem C113_never_trap_refuted :
  exists s e u, reachable s /\
    snd (step e (ORevokeTokens []) s) = ATrap /\
    snd (step e (OTransfer [xfer carol 1]) s) = ABatch [Ok 5] /\
    snd (step (from_ admin 0) (OUpdateCollection u) s) = AOk /\
    snd (step e (OTransfer [xfer carol 1]) (fst (step (from_ admin 0) (OUpdateCollection u) s))) = ATrap.
Proof.
  exists demo2, (from_ alice 3000000000),
    (mkCU None None None None None None (Some two32) None None None None None None None None).
  split; [apply demo_reachable|]. splits; vm_compute; reflexivity.
Qed.
Print Assumptions C113_never_trap_refuted.

Lemma run_items_some {A B} (f : state -> A -> option (state * B)) l :
  (forall s a, a ∈ l -> f s a <> None) -> forall s, run_items f s l <> None.
Proof.
  induction l as [|a l IH]; intros H s; [discriminate|]. cbn [run_items].
  destruct (f s a) as [[s1 b]|] eqn:F; [|destruct (H s a ltac:(left) F)].
  destruct (run_items f s1 l) as [[s2 bs]|] eqn:R; [discriminate|].
  exfalso. eapply IH; [|exact R]. intros. apply H. right. assumption.
Qed.

Lemma run_items_some_inv {A B} (P : state -> Prop) (f : state -> A -> option (state * B)) l :
  (forall s a, a ∈ l -> P s -> f s a <> None) ->
  (forall s a s' b, P s -> f s a = Some (s', b) -> P s') -> forall s, P s -> run_items f s l <> None.
Proof.
  intros H K. induction l as [|a l IH]; intros s Ps; [discriminate|]. cbn [run_items].
  destruct (f s a) as [[s1 b]|] eqn:F; [|destruct (H s a ltac:(left) Ps F)].
  destruct (run_items f s1 l) as [[s2 bs]|] eqn:R; [discriminate|].
  exfalso. eapply IH; [|eapply K; eassumption|exact R]. intros. apply H; [right|]; assumption.
Qed.

(** With settings within the ranges, existing tokens numbered below 2^64 (they are numbered from 1 upwards) and a revocation that names something, no call of the token
    standards traps.  Missing: the other cases. *)
Theorem C113_never_trap_partial e o s :
  match o with
  | OTransfer _ => default 100 (c_max_update (cfg s)) < 2 ^ 32 /\ default 1000000 (c_max_memo (cfg s)) < 2 ^ 32 /\
                   default 50000000 (c_drift (cfg s)) < 2 ^ 64 /\ default 10000000000 (c_tx_window (cfg s)) < 2 ^ 64
  | OApproveTokens l => forall a, a ∈ l -> owner_of s (ap_tid a) <> None -> ap_tid a < 2 ^ 64
  | ORevokeTokens l => l <> []
  | OApproveCollection _ | ORevokeCollection _ | OTransferFrom _ => True
  | _ => False
  end -> snd (step e o s) <> ATrap.
Proof.
  change (2 ^ 32) with two32. change (2 ^ 64) with two64.
  destruct o; try contradiction.
  - intros (H1 & H2 & H3 & H4). apply C08_transfer_never_traps; assumption.
  - intros H. simpl. unfold icrc37_approve_tokens.
    destruct (run_items _ _ _) as [[? ?]|] eqn:R; [discriminate|]. exfalso. revert R.
    apply (run_items_some_inv (fun x => tokens x = tokens s)); [|intros x a x' b Ex Fx|reflexivity].
    2: { destruct (approve_token_inv _ _ _ _ _ Fx) as [[Q _]|(s2 & j & ow & _ & Q & _ & _ & _ & _ & _ & ->)];
           destruct Q as (w & k & ->); exact Ex. }
    intros s1 a Ha E1. unfold approve_token. destruct (guard_sliding_window _ _ _) as [s2 pass] eqn:G.
    destruct (guard_quiet _ _ _ _ _ G) as (w & k & Eq). assert (E2 : tokens s2 = tokens s) by (rewrite Eq; exact E1).
    clear Eq G. destruct pass; cbn [negb]; [|discriminate].
    destruct (verify_approval_timing _ _ _); try discriminate. destruct (owner_of s2 _) as [ow|] eqn:O; [|discriminate].
    assert (L : ap_tid a < two64).
    { apply H; [exact Ha|]. unfold owner_of in *. rewrite E2 in O. rewrite O. discriminate. }
    destruct (negb _); [discriminate|]. destruct (acc_eqb _ _); [discriminate|].
    destruct (match tok_appr s2 !! ap_tid a with Some _ => _ | None => _ end); [discriminate|].
    destruct (add_transaction _ _ _) as [s3 [| | |]]; try discriminate. rewrite (proj2 (N.ltb_lt _ _) L). discriminate.
  - intros _. simpl. unfold icrc37_approve_collection.
    destruct (run_items _ _ _) as [[? ?]|] eqn:R; [discriminate|]. exfalso. revert R. apply run_items_some.
    intros s1 a Ha. unfold approve_collection. destruct (guard_sliding_window _ _ _) as [s2 pass]. destruct pass; cbn [negb]; [|discriminate].
    destruct (verify_approval_timing _ _ _); try discriminate.
    destruct (acc_eqb _ _); [discriminate|]. destruct (negb _); [discriminate|].
    destruct (match col_appr s2 !! _ with Some _ => _ | None => _ end); [discriminate|].
    destruct (add_transaction _ _ _) as [s3 [| | |]]; discriminate.
  - intros H. simpl. unfold icrc37_revoke_token_approvals. destruct args as [|a0 l]; [congruence|].
    destruct (guard_sliding_window _ _ _) as [s1 pass]. destruct pass; cbn [negb]; [|discriminate].
    destruct (run_items _ _ _) as [[? ?]|] eqn:R; [discriminate|]. exfalso. revert R. apply run_items_some.
    intros s2 a Ha. unfold revoke_token_approvals. destruct (verify_opt_timing _ _ _); try discriminate.
    destruct (owner_of _ _); [|discriminate]. destruct (negb _); [discriminate|].
    destruct (tok_appr s2 !! _); [|discriminate]. destruct (add_transaction _ _ _) as [s3 [| | |]]; discriminate.
  - intros _. simpl. unfold icrc37_revoke_collection_approvals.
    destruct (run_items _ _ _) as [[? ?]|] eqn:R; [discriminate|]. exfalso. revert R. apply run_items_some.
    intros s1 a Ha. unfold revoke_collection_approvals. destruct (guard_sliding_window _ _ _) as [s2 pass]. destruct pass; cbn [negb]; [|discriminate].
    destruct (verify_opt_timing _ _ _); try discriminate.
    destruct (col_appr s2 !! _); [|discriminate]. destruct (add_transaction _ _ _) as [s3 [| | |]]; discriminate.
  - intros _. simpl. unfold icrc37_transfer_from.
    destruct (run_items _ _ _) as [[? ?]|] eqn:R; [discriminate|]. exfalso. revert R. apply run_items_some.
    intros s1 a Ha. unfold transfer_from. destruct (guard_sliding_window _ _ _) as [s2 pass]. destruct pass; cbn [negb]; [|discriminate].
    destruct (verify_opt_timing _ _ _); try discriminate. destruct (tokens s2 !! _); [|discriminate].
    destruct (acc_eqb _ _); [discriminate|]. destruct (acc_eqb _ _); [discriminate|].
    destruct (check_token_approval _ _ _ _) as [s3 b3]. destruct (check_collection_approval _ _ _ _) as [s4 b4].
    destruct (_ || _); [discriminate|]. destruct (add_transaction _ _ _) as [s5 [| | |]]; discriminate.
Qed.
Print Assumptions C113_never_trap_partial.

(** Hence approvals never trap before 2^64 tokens were minted. *)
Corollary C113_approvals_never_trap_partial e l s :
  reachable s -> last_id s <= 2 ^ 64 -> snd (step e (OApproveTokens l) s) <> ATrap.
Proof.
  intros R L. apply C113_never_trap_partial. intros a _ O. unfold owner_of in O.
  destruct (tokens s !! ap_tid a) as [t|] eqn:T; [|destruct (O eq_refl)]. pose proof (wf_lt _ (reachable_wf _ R) _ _ T). lia.
Qed.
Print Assumptions C113_approvals_never_trap_partial.

Example C113_example :
  (default 100 (c_max_update (cfg demo2)) < 2 ^ 32 /\ default 1000000 (c_max_memo (cfg demo2)) < 2 ^ 32 /\
   default 50000000 (c_drift (cfg demo2)) < 2 ^ 64 /\ default 10000000000 (c_tx_window (cfg demo2)) < 2 ^ 64) /\
  last_id demo2 <= 2 ^ 64 /\
  snd (step (from_ alice 3000000000) (OApproveTokens [appr 1 bob 0 None; appr (2 ^ 70) bob 3000000000 None]) demo2)
    = ABatch [Ok 5; Err ENonExistingTokenId].
Proof. splits; vm_compute; first [reflexivity|discriminate]. Qed.

(** ** C114 *)

(** Calls about a whole collection. *)
Definition collection_call (o : op) : Prop :=
  match o with OApproveCollection l => l <> [] | ORevokeCollection l => l <> [] | _ => False end.

(** Refuted: carol, who owns nothing, makes five calls that are refused, and alice cannot revoke what she granted. *)
Theorem C114_collection_calls_free_refuted :
  exists s e1 e2 l a, reachable s /\ e_caller e1 = carol /\ has_nfts s carol = false /\ e_caller e2 = alice /\
    snd (step e1 (OApproveCollection l) s)
      = ABatch (repeat (Err (EGeneric 1 "Caller must own at least one NFT to approve collection")) 5) /\
    snd (step e2 (ORevokeCollection [a]) s) = ABatch [Ok 5] /\
    snd (step e2 (ORevokeCollection [a]) (fst (step e1 (OApproveCollection l) s))) = ABatch [Err (EGeneric 0 "Rate limit exceeded. You can make another call in 59999990 milliseconds")].
Proof.
  exists demo2, (from_ carol 3000000000), (from_ alice 3000000010), (repeat (info bob 3000000000 None) 5),
    (mkRevokeCollArg None None None None).
  split; [apply demo_reachable|]. splits; vm_compute; reflexivity.
Qed.
Print Assumptions C114_collection_calls_free_refuted.

Lemma attempts_mention0 ev b : (0, b) ∈ attempts ev -> mentions 0 (ev_op ev) \/ collection_call (ev_op ev).
Proof.
  unfold attempts.
  assert (Z : forall A (f : A -> N) (l : list A) rs (g : A * res N -> bool),
            (0, b) ∈ map (fun x => (f (fst x), g x)) (zip l rs) -> exists a, a ∈ l /\ f a = 0).
  { intros A f l rs g H. apply elem_of_list_fmap in H. destruct H as ([a r] & E & H). injection E as E _. exists a.
    split; [|symmetry; exact E]. apply elem_of_zip_l in H. exact H. }
  assert (Nil : forall (G : Prop), (0, b) ∈ ([] : list (N * bool)) -> G) by (intros G H; apply elem_of_nil in H; contradiction).
  destruct (ev_op ev) as [l|l|l|l|l|l| | | | | | | | | | | |]; try exact (Nil _).
  - destruct (ev_ans ev); try exact (Nil _).
    intros H. apply elem_of_list_fmap in H. destruct H as ([a r] & E & H). injection E as E _.
    apply elem_of_list_filter in H. left. exists a. split; [|symmetry; exact E]. apply (elem_of_zip_l _ _ _ _ (proj2 H)).
  - destruct (ev_ans ev); try exact (Nil _). intros H. left. eapply Z; exact H.
  - destruct (ev_ans ev); try exact (Nil _). intros H. right. simpl. intros ->. apply elem_of_nil in H. contradiction.
  - destruct l as [|a l]; [exact (Nil _)|]. destruct (ev_ans ev); try exact (Nil _); intros H; apply elem_of_list_singleton in H;
      left; exists a; (split; [left|congruence]).
  - destruct (ev_ans ev); try exact (Nil _). intros H. right. simpl. intros ->. apply elem_of_nil in H. contradiction.
  - destruct (ev_ans ev); try exact (Nil _). intros H. left. eapply Z; exact H.
Qed.

(** Calls about single tokens (there is no token 0) never get in the way of collection calls, nor does anything from 60 ms on.
    With C84: such a call then succeeds.  Missing: other accounts' collection calls younger than that. *)
Theorem C114_collection_calls_free_partial h now s0 :
  now_at h now s0 ->
  (forall e o, (e, o) ∈ h -> mentions 0 o \/ collection_call o -> e_now e + 60000000 <= now) ->
  idle h now 0 s0.
Proof.
  intros _ H. unfold idle. rewrite (filter_none (fun t => now < t + 60000000)); [simpl; lia|].
  intros t Hin. unfold passes in Hin. apply elem_of_list_fmap in Hin. destruct Hin as ([[t' i] b] & -> & Hin).
  apply elem_of_list_filter in Hin. destruct Hin as [[Ei Eb] Hin]. simpl in Ei, Eb. subst i b.
  unfold all_attempts in Hin. apply elem_of_list_In, in_concat in Hin. destruct Hin as (x & Hin & Hx).
  apply elem_of_list_In in Hin, Hx. apply elem_of_list_fmap in Hin. destruct Hin as (ev & -> & Hev). apply elem_of_list_fmap in Hx.
  destruct Hx as ([i b] & E & Ha). injection E as -> <- <-. simpl.
  specialize (H _ _ (trace_in _ _ _ Hev) (attempts_mention0 _ _ Ha)). lia.
Qed.
Print Assumptions C114_collection_calls_free_partial.

(** Fifty calls about tokens in the same nanosecond do not keep alice from revoking; carol's five did. *)
Example C114_example :
  let busy := run (concat (map (fun t => [(from_ bob 3000000000, OTransfer (repeat (xfer carol t) 5))]) [1; 2; 3; 4; 5; 6; 7; 8; 9; 10])) demo2 in
  snd (step (from_ alice 3000000010) (ORevokeCollection [mkRevokeCollArg None None None None]) busy) = ABatch [Ok 6].
Proof. vm_compute. reflexivity. Qed.

(** ** C115 *)

(** Three approvals on token 1 of the demonstration, oldest first: bob, carol, admin. *)
Definition listed3_h : history :=
  demo1_h ++ [(from_ alice 1000000000, OApproveTokens [appr 1 bob 1000000000 None]);
              (from_ alice 2000000000, OApproveTokens [appr 1 carol 2000000000 None]);
              (from_ alice 3000000000, OApproveTokens [appr 1 admin 3000000000 None])].

(** Refuted: a client has read the page [admin; carol]; carol is revoked; the next page repeats admin. *)
Theorem C115_paging_under_revocation_refuted :
  exists s e a, reachable s /\ rv_spender a = Some (acct carol) /\ rv_tid a = 1 /\
    map ai_spender (icrc37_get_token_approvals (fun l => l) s 1 None (Some 2)) = [acct admin; acct carol] /\
    snd (step e (ORevokeTokens [a]) s) = ABatch [Ok 6] /\
    map ai_spender (icrc37_get_token_approvals (fun l => l) (fst (step e (ORevokeTokens [a]) s)) 1 (Some (acct carol)) (Some 2))
      = [acct admin; acct bob].
Proof.
  exists (run listed3_h demo0), (from_ alice 4000000000), (mkRevokeArg (Some (acct carol)) None 1 None None).
  split; [apply demo_reachable|]. splits; vm_compute; reflexivity.
Qed.
Print Assumptions C115_paging_under_revocation_refuted.

Lemma position_spender_none sp L : position_spender sp L = None <-> forall x, x ∈ L -> akey (ai_spender x) <> akey sp.
Proof.
  induction L as [|y L IH]; simpl.
  - split; [|reflexivity]. intros _ x Hx. apply elem_of_nil in Hx. contradiction.
  - destruct (acc_eqb (ai_spender y) sp) eqn:E.
    + split; [discriminate|]. intros H. exfalso. apply (H y); [left|]. apply acc_eqb_true. exact E.
    + apply acc_eqb_false in E. destruct (position_spender sp L) as [n|].
      * split; [discriminate|]. intros H. exfalso. destruct IH as [_ IH]. discriminate IH. intros x Hx. apply H. right. exact Hx.
      * split; [|reflexivity]. intros _ x Hx. apply elem_of_cons in Hx. destruct Hx as [->|Hx]; [exact E|]. apply (proj1 IH eq_refl x Hx).
Qed.

Lemma position_spender_key sp sp' L : akey sp = akey sp' -> position_spender sp L = position_spender sp' L.
Proof. intros E. induction L as [|y L IH]; simpl; [reflexivity|]. unfold acc_eqb. rewrite E, IH. reflexivity. Qed.

(** The listing of a token, newest first; a page that names a listed spender starts right behind it, any other starts from the
    beginning.  Missing: continuing at the right place when the spender named is no longer listed. *)
Theorem C115_pages_partial order s t tk :
  reachable s -> (forall x, order x ≡ₚ x) ->
  let n := N.to_nat (match tk with Some n => if n <? 2 ^ 32 then n else 10 | None => 10 end) in
  exists L aps, aps ≡ₚ approvals_on s t /\ Forall2 shows L aps /\ StronglySorted (fun x y => ai_created y <= ai_created x) L /\
    icrc37_get_token_approvals order s t None tk = take n L /\
    (forall j x sp, L !! j = Some x -> akey sp = akey (ai_spender x) ->
       icrc37_get_token_approvals order s t (Some sp) tk = take n (drop (S j) L)) /\
    (forall sp, token_approval s t sp = None -> icrc37_get_token_approvals order s t (Some sp) tk = take n L).
Proof.
  intros Hr Ho n.
  assert (En : n = N.to_nat (page_take tk)) by reflexivity.
  destruct (entries_shows s t order Ho) as (aps & P & F).
  set (L := merge_sort newer (map listed_info (order (token_approvals_entries s t)))) in *.
  assert (PL : L ≡ₚ map listed_info (token_approvals_entries s t)).
  { unfold L. rewrite merge_sort_Permutation. apply Permutation_map. apply Ho. }
  assert (Keys : forall m k ka ap, tok_appr s !! t = Some m -> m !! k = Some (ka, ap) -> akey (a_spender ap) = k).
  { intros m k ka ap Hm Hk. eapply token_entry_spender; eauto. }
  assert (ND : NoDup (map (fun i => akey (ai_spender i)) L)).
  { rewrite PL. unfold token_approvals_entries. destruct (tok_appr s !! t) as [m|] eqn:Em; [|constructor].
    apply spenders_NoDup. intros k ka ap Hk. eapply Keys; eauto. }
  assert (Pg : forall prev, icrc37_get_token_approvals order s t prev tk =
            take n (drop (match prev with Some sp => match position_spender sp L with Some j => S j | None => 0%nat end | None => 0%nat end) L)).
  { intros prev. unfold icrc37_get_token_approvals, approvals_page. rewrite page_take_eq, take_n_take, <- En. reflexivity. }
  exists L, aps. split; [exact P|]. split; [exact F|]. split; [apply (StronglySorted_merge_sort newer)|].
  split; [apply Pg|]. split.
  - intros j x sp Hj Hk. rewrite Pg, (position_spender_key _ _ L Hk), (position_spender_spec L ND j x Hj). reflexivity.
  - intros sp Hn. rewrite Pg. rewrite (proj2 (position_spender_none sp L)); [reflexivity|].
    intros x Hx Hk. rewrite PL in Hx. apply elem_of_list_fmap in Hx. destruct Hx as ([ka ap] & -> & Hx). simpl in Hk.
    unfold token_approvals_entries in Hx. unfold token_approval in Hn. destruct (tok_appr s !! t) as [m|] eqn:Em.
    + apply elem_of_list_fmap in Hx. destruct Hx as ([k y] & E & Hx). simpl in E. subst y. apply elem_of_map_to_list in Hx.
      pose proof (Keys m k ka ap eq_refl Hx) as K. rewrite <- Hk, K in Hn. apply fmap_None in Hn. apply eq_None_not_Some in Hn. apply Hn. eexists. exact Hx.
    + apply elem_of_nil in Hx. contradiction.
Qed.
Print Assumptions C115_pages_partial.

Example C115_example :
  length (approvals_on (run listed3_h demo0) 1) = 3%nat /\
  map ai_spender (icrc37_get_token_approvals (fun l => l) (run listed3_h demo0) 1 (Some (acct carol)) (Some 2)) = [acct bob].
Proof. split; vm_compute; reflexivity. Qed.

(** ** C116 *)

(** Refuted: alice revokes an approval that the admin never had, with success and a block; the same for bob's collection approval. *)
Theorem C116_revoke_only_existing_refuted :
  exists s e a c, reachable s /\ token_approval s (rv_tid a) (acct admin) = None /\ rv_spender a = Some (acct admin) /\
    collection_approval s (mkAcc (e_caller e) (rc_from_sub c)) (acct bob) = None /\ rc_spender c = Some (acct bob) /\
    snd (step e (ORevokeTokens [a]) s) = ABatch [Ok 5] /\ snd (step e (ORevokeCollection [c]) s) = ABatch [Ok 5].
Proof.
  exists demo2, (from_ alice 3000000000), (mkRevokeArg (Some (acct admin)) None 1 None None),
    (mkRevokeCollArg (Some (acct bob)) None None None).
  split; [apply demo_reachable|]. splits; vm_compute; reflexivity.
Qed.
Print Assumptions C116_revoke_only_existing_refuted.

(** The answer "does not exist" is true: there is no approval at all.  Missing: giving it when the spender named has none but
    others have or had. *)
Theorem C116_revoke_only_existing_partial e s s' :
  (forall a, step e (ORevokeTokens [a]) s = (s', ABatch [Err EApprovalDoesNotExist]) ->
     forall sp, token_approval s (rv_tid a) sp = None) /\
  (forall a, step e (ORevokeCollection [a]) s = (s', ABatch [Err EApprovalDoesNotExist]) ->
     forall sp, collection_approval s (mkAcc (e_caller e) None) sp = None).
Proof.
  split; intros a H sp.
  - apply step_revoke_single in H. destruct H as (s1 & Q & F). revert F. unfold revoke_token_approvals.
    destruct (verify_opt_timing _ _ _); [|discriminate..]. destruct (owner_of _ _); [|discriminate].
    destruct (negb _); [discriminate|]. destruct (tok_appr s1 !! rv_tid a) eqn:E.
    + destruct (add_transaction _ _ _) as [s3 [| | |]]; discriminate.
    + intros _. unfold token_approval. destruct Q as (w & n & ->). simpl in E. rewrite E. reflexivity.
  - apply step_revoke_coll_single in H. revert H. unfold revoke_collection_approvals.
    destruct (guard_sliding_window _ _ _) as [s1 pass] eqn:G. pose proof (guard_quiet _ _ _ _ _ G) as Q.
    destruct pass; cbn [negb]; [|discriminate]. destruct (verify_opt_timing _ _ _); [|discriminate..].
    destruct (col_appr s1 !! _) eqn:E.
    + destruct (add_transaction _ _ _) as [s3 [| | |]]; discriminate.
    + intros _. unfold collection_approval. destruct Q as (w & n & ->). simpl in E. rewrite E. reflexivity.
Qed.
Print Assumptions C116_revoke_only_existing_partial.

(** Where nothing was ever approved, no revocation succeeds. *)
Lemma never_approved_token n h s : tok_appr s !! n = None ->
  (forall e l a, (e, OApproveTokens l) ∈ h -> a ∈ l -> ap_tid a <> n) -> tok_appr (run h s) !! n = None.
Proof.
  revert s. induction h as [|[e o] h IH]; intros s N H; [exact N|]. cbn [run]. apply IH.
  - apply (step_inv (fun s => tok_appr s !! n = None)); [|exact N]. clear s N. intros s s' N M.
    micro_cases M; try exact N.
    + rewrite lookup_insert_ne; [exact N|]. eapply H; [left|eassumption].
    + rewrite lookup_insert_ne; [exact N|]. congruence.
    + destruct (decide (tf_tid a = n)) as [<-|D]; [unfold drop_expired; rewrite N; exact N|]. rewrite drop_expired_other; assumption.
    + destruct (decide (tf_tid a = n)) as [<-|D]; [apply lookup_delete|]. rewrite lookup_delete_ne by exact D.
      rewrite drop_expired_other; assumption.
  - intros e' l a I. apply (H e' l a). right. exact I.
Qed.

Lemma never_approved_collection k h s : col_appr s !! k = None ->
  (forall e l a, (e, OApproveCollection l) ∈ h -> a ∈ l -> akey (mkAcc (e_caller e) (ai_from_sub a)) <> k) ->
  col_appr (run h s) !! k = None.
Proof.
  revert s. induction h as [|[e o] h IH]; intros s N H; [exact N|]. cbn [run]. apply IH.
  - apply (step_inv (fun s => col_appr s !! k = None)); [|exact N]. clear s N. intros s s' N M.
    assert (D : forall now x sp, drop_expired now x sp (col_appr s) !! k = None).
    { intros now x sp. destruct (decide (x = k)) as [->|D]; [unfold drop_expired; rewrite N; exact N|].
      rewrite drop_expired_other; assumption. }
    micro_cases M; try exact N; try apply D.
    + rewrite lookup_insert_ne; [exact N|]. eapply H; [left|eassumption].
    + rewrite lookup_insert_ne; [exact N|]. intros E. rewrite E in *. congruence.
    + match goal with |- delete ?x _ !! _ = _ => destruct (decide (x = k)) as [->|Dx]; [apply lookup_delete|] end.
      rewrite lookup_delete_ne by exact Dx. apply D.
  - intros e' l a I. apply (H e' l a). right. exact I.
Qed.

Theorem C116_never_approved caller url_ok ia s0 h e :
  init caller url_ok ia = Some s0 ->
  (forall a i, (forall e' l b, (e', OApproveTokens l) ∈ h -> b ∈ l -> ap_tid b <> rv_tid a) ->
     snd (step e (ORevokeTokens [a]) (run h s0)) <> ABatch [Ok i]) /\
  (forall a i, (forall e' l b, (e', OApproveCollection l) ∈ h -> b ∈ l ->
        akey (mkAcc (e_caller e') (ai_from_sub b)) <> akey (mkAcc (e_caller e) None)) ->
     snd (step e (ORevokeCollection [a]) (run h s0)) <> ABatch [Ok i]).
Proof.
  intros Hi. apply init_inv in Hi. destruct Hi as (_ & _ & _ & _ & Es).
  assert (Et : forall n, tok_appr s0 !! n = None) by (subst; intros; apply lookup_empty).
  assert (Ec : forall k, col_appr s0 !! k = None) by (subst; intros; apply lookup_empty). clear Es. split; intros a i H B.
  - pose proof (never_approved_token (rv_tid a) h _ (Et _) H) as N.
    destruct (step e _ _) as [s' r] eqn:E in B. cbn [snd] in B. subst r. apply step_revoke_single in E.
    destruct E as (s1 & (w & n & ->) & F). revert F. unfold revoke_token_approvals.
    destruct (verify_opt_timing _ _ _); [|discriminate..]. destruct (owner_of _ _); [|discriminate].
    destruct (negb _); [discriminate|]. cbn [tok_appr]. simpl in N |- *. rewrite N. discriminate.
  - pose proof (never_approved_collection (akey (mkAcc (e_caller e) None)) h _ (Ec _) H) as N.
    destruct (step e _ _) as [s' r] eqn:E in B. cbn [snd] in B. subst r. apply step_revoke_coll_single in E. revert E.
    unfold revoke_collection_approvals.
    destruct (guard_sliding_window _ _ _) as [s1 pass] eqn:G. pose proof (guard_quiet _ _ _ _ _ G) as (w & n & ->).
    destruct pass; cbn [negb]; [|discriminate]. destruct (verify_opt_timing _ _ _); [|discriminate..].
    simpl in N |- *. rewrite N. discriminate.
Qed.
Print Assumptions C116_never_approved.

Example C116_example :
  (forall e l b, (e, OApproveTokens l) ∈ demo2_h -> b ∈ l -> ap_tid b <> 2) /\
  snd (step (from_ alice 3000000000) (ORevokeTokens [mkRevokeArg (Some (acct bob)) None 2 None None]) demo2)
    = ABatch [Err EApprovalDoesNotExist] /\
  snd (step (from_ bob 3000000000) (ORevokeCollection [mkRevokeCollArg None None None None]) demo2)
    = ABatch [Err EApprovalDoesNotExist].
Proof.
  split; [|split; vm_compute; reflexivity]. intros e l b I B.
  unfold demo2_h, demo1_h in I. cbn [app] in I.
  repeat (apply elem_of_cons in I; destruct I as [I|I]; [first [discriminate I | injection I as -> ->; apply elem_of_list_singleton in B; subst b; discriminate]|]).
  apply elem_of_nil in I. destruct I.
Qed.

(** ** C117 *)

(** Refuted: the cap is lowered below the number of tokens. *)
Theorem C117_supply_below_cap_refuted :
  exists s c, reachable s /\ icrc7_supply_cap s = Some c /\ c < total_supply s.
Proof.
  exists (run (demo2_h ++ [(from_ admin 3000000000,
            OUpdateCollection (mkCU None None None None (Some 1) None None None None None None None None None None))]) demo0), 1.
  split; [apply demo_reachable|]. split; vm_compute; reflexivity.
Qed.
Print Assumptions C117_supply_below_cap_refuted.

(** Updates of the settings set no cap below the present number of tokens. *)
Definition caps_sound (tr : list event) : Prop :=
  forall ev u c, ev ∈ tr -> ev_op ev = OUpdateCollection u -> cu_supply_cap u = Some c -> total_supply (ev_before ev) <= c.

Lemma cap_cfg e o s : (forall u, o <> OUpdateCollection u) -> cfg (fst (step e o s)) = cfg s.
Proof.
  intros H. apply (step_rel (fun _ => True) (fun a b => cfg b = cfg a) e o s); [reflexivity|congruence| |exact I].
  intros x y _ M. split; [exact I|]. micro_split M; try reflexivity.
  - exfalso. exact (H u eq_refl).
  - destruct p, r; reflexivity.
Qed.

Lemma upd_or o : (exists u, o = OUpdateCollection u) \/ forall u, o <> OUpdateCollection u.
Proof. destruct o; try (right; discriminate). left. eauto. Qed.

Lemma mint_or o an : (exists l k, o = OMint l /\ an = ANat k) \/ forall l k, o = OMint l -> an <> ANat k.
Proof. destruct o; try (right; discriminate). destruct an; try (right; discriminate). left. eauto. Qed.

(** Then the supply never exceeds the cap (10000 when none is set).  Missing: caps set too low. *)
Theorem C117_supply_below_cap_partial caller url_ok a s0 h :
  init caller url_ok a = Some s0 -> caps_sound (trace h s0) ->
  total_supply (run h s0) <= default 10000 (icrc7_supply_cap (run h s0)).
Proof.
  intros Hi.
  assert (G : forall s, wf s -> caps_sound (trace h s) -> total_supply s <= default 10000 (icrc7_supply_cap s) ->
              total_supply (run h s) <= default 10000 (icrc7_supply_cap (run h s))).
  { clear. induction h as [|[e o] h IH]; intros s W C B; [exact B|]. simpl in *.
    destruct (step e o s) as [s' an] eqn:St. simpl.
    assert (W' : wf s') by (pose proof (step_wf e o s W) as X; rewrite St in X; exact X).
    apply IH; [exact W'| |].
    { intros ev u c Hin. apply C. right. exact Hin. }
    pose proof (supply_step _ _ _ _ _ W St) as S. unfold total_supply, icrc7_supply_cap in *.
    assert (Le : (forall l k, o = OMint l -> an <> ANat k) -> N.of_nat (size (tokens s')) <= N.of_nat (size (tokens s))).
    { intros Hm. assert (minted_ids (mkEv s e o an s') = []) as E.
      { unfold minted_ids. simpl. destruct o; try reflexivity. destruct an; try reflexivity. destruct (Hm _ _ eq_refl eq_refl). }
      rewrite E in S. simpl in S. lia. }
    destruct (upd_or o) as [[u ->]|Hu].
    - specialize (Le ltac:(discriminate)).
      assert (Cc : forall c, cu_supply_cap u = Some c -> N.of_nat (size (tokens s)) <= c).
      { intros c Hc. exact (C (mkEv s e (OUpdateCollection u) an s') u c ltac:(left) eq_refl Hc). }
      assert (E : cfg s' = cfg s \/ cfg s' = apply_update u (cfg s)).
      { revert St. simpl. unfold update_collection_metadata, with_permission.
        destruct (has_permission _ _ _); [|intros [= <- <-]; auto].
        rewrite (with_lock_eq _ _ _ (commutes_cfg u)). destruct (decide _); intros [= <- <-]; auto. }
      destruct E as [->| ->]; [lia|]. simpl. destruct (cu_supply_cap u) as [c|] eqn:Hc; simpl; [|lia]. specialize (Cc c eq_refl). lia.
    - pose proof (cap_cfg e o s Hu) as E. rewrite St in E. simpl in E. rewrite E.
      destruct (mint_or o an) as [(l & k & -> & ->)|Hm]; [|specialize (Le Hm); lia].
      destruct (step_mint _ _ _ _ _ St) as (_ & _ & _ & _ & _ & Cap & _). unfold burned_ids, minted_ids in S. simpl in S.
      rewrite count_from_length in S. unfold nlen in Cap. change default_supply_cap with 10000 in Cap. lia. }
  intros C. apply G; [eapply init_wf; eauto|exact C|].
  destruct (init_last_id _ _ _ _ Hi) as (_ & T0 & _). unfold total_supply. rewrite T0. change (size (∅ : gmap N token)) with 0%nat. lia.
Qed.
Print Assumptions C117_supply_below_cap_partial.

Example C117_example :
  let h := demo2_h ++ [(from_ admin 3000000000,
             OUpdateCollection (mkCU None None None None (Some 3) None None None None None None None None None None))] in
  caps_sound (trace h demo0) /\ icrc7_supply_cap (run h demo0) = Some 3 /\ total_supply (run h demo0) = 3 /\
  snd (step (from_ admin 4000000000) mint3 (run h demo0)) = AErr EExceedMaxAllowedSupplyCap.
Proof.
  intros h. split.
  - unfold caps_sound, h, demo2_h, demo1_h. intros ev u c Hin Ho Hc.
    apply trace_step in Hin. destruct Hin as (_ & h1 & h2 & Eh & Eb).
    rewrite Eb. rewrite Ho in Eh. clear Eb.
    destruct h1 as [|x1 [|x2 [|x3 [|x4 h1]]]]; simpl in Eh.
    + injection Eh as _ E _. discriminate E.
    + injection Eh as _ _ E _. discriminate E.
    + injection Eh as _ _ _ E _. discriminate E.
    + injection Eh as <- <- <- _ <- _. simpl in Hc. injection Hc as <-. vm_compute. discriminate.
    + exfalso. apply (f_equal length) in Eh. simpl in Eh. rewrite app_length in Eh. simpl in Eh. lia.
  - splits; vm_compute; reflexivity.
Qed.

(** ** C118 *)

(** Refuted: values that no installation accepts are set by an update: a transaction window of 2^64, a logo that is no URL. *)
Theorem C118_update_checks_refuted :
  exists s e u1 u2, reachable s /\
    snd (step e (OUpdateCollection u1) s) = AOk /\ icrc7_tx_window (fst (step e (OUpdateCollection u1) s)) = Some (2 ^ 64) /\
    snd (step e (OUpdateCollection u2) s) = AOk /\ icrc7_logo (fst (step e (OUpdateCollection u2) s)) = Some "no url"%string /\
    (forall caller url_ok a, i_tx_window a = Some (2 ^ 64) -> init caller url_ok a = None) /\
    (forall caller url_ok a, url_ok "no url"%string = false -> i_logo a = Some "no url"%string -> init caller url_ok a = None).
Proof.
  exists demo2, (from_ admin 3000000000),
    (mkCU None None None None None None None None None None None (Some (2 ^ 64)) None None None),
    (mkCU None None None (Some "no url"%string) None None None None None None None None None None None).
  split; [apply demo_reachable|]. split; [vm_compute; reflexivity|]. split; [vm_compute; reflexivity|].
  split; [vm_compute; reflexivity|]. split; [vm_compute; reflexivity|]. split.
  - intros caller url_ok a E. unfold init. rewrite E. destruct (match i_logo a with Some _ => _ | None => _ end); reflexivity.
  - intros caller url_ok a U E. unfold init. rewrite E, U. reflexivity.
Qed.
Print Assumptions C118_update_checks_refuted.

(** The limits of approvals and revocations, which an installation refuses to set to 0, keep their installed values for ever.
    Missing: the other settings. *)
Theorem C118_limits_positive_partial caller url_ok a s0 h :
  init caller url_ok a = Some s0 ->
  icrc37_max_approvals (run h s0) = i_max_appr a /\ icrc37_max_revoke (run h s0) = i_max_revoke a /\
  icrc37_max_approvals (run h s0) <> Some 0 /\ icrc37_max_revoke (run h s0) <> Some 0.
Proof.
  intros Hi.
  assert (E : c_max_appr (cfg (run h s0)) = i_max_appr a /\ c_max_revoke (cfg (run h s0)) = i_max_revoke a).
  { apply (run_inv (fun s => c_max_appr (cfg s) = i_max_appr a /\ c_max_revoke (cfg s) = i_max_revoke a)).
    - intros e o s s' P M. micro_split M; try exact P. destruct p, r; exact P.
    - apply init_inv in Hi. destruct Hi as (_ & _ & _ & _ & ->). split; reflexivity. }
  unfold icrc37_max_approvals, icrc37_max_revoke. destruct E as [-> ->].
  revert Hi. unfold init. destruct (match i_logo a with Some _ => _ | None => _ end); [discriminate|].
  destruct (match i_tx_window a with Some _ => _ | None => _ end); [|discriminate].
  destruct (bool_decide (i_max_revoke a = Some 0)) eqn:B1; [discriminate|]. destruct (bool_decide (i_max_appr a = Some 0)) eqn:B2; [discriminate|].
  apply bool_decide_eq_false in B1, B2. auto.
Qed.
Print Assumptions C118_limits_positive_partial.

Example C118_example :
  init admin (fun _ => true) one_approval = Some (demo_init one_approval) /\
  icrc37_max_approvals (run demo2_h (demo_init one_approval)) = Some 1.
Proof. split; vm_compute; reflexivity. Qed.

