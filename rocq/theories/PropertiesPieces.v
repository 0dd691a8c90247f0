(** C171: one message or several. *)
From Verif Require Import Base ModelPrincipal ModelState ModelIcrc7 ModelIcrc37 ModelManagement ModelLifecycle
  ModelQueries ModelStep ProofsItems ProofsManage ProofsMicro Spec ProofsCore ProofsOwner ProofsTime ProofsRate
  ProofsApprovals Scenario PropertiesBatch.

(** The same call made once for each of the given lists of items. *)
Definition one_by_one {A} (call : list A -> op) (e : env) (ls : list (list A)) : history := map (fun l => (e, call l)) ls.

(** A call with all the items answers [concat bss] and ends in [s'] exactly if the calls with the parts, made one after the
    other, answer [bss] and end in [s']. *)
Definition same_in_parts {A} (call : list A -> op) (e : env) (s : state) (ls : list (list A)) : Prop :=
  forall s' bss, Forall2 (fun l bs => length bs = length l) ls bss ->
    step e (call (concat ls)) s = (s', ABatch (concat bss)) <->
    (run (one_by_one call e ls) s = s' /\ map ev_ans (trace (one_by_one call e ls) s) = map ABatch bss).

Lemma run_items_app {A B} (f : state -> A -> option (state * B)) l1 l2 : forall s,
  run_items f s (l1 ++ l2) =
  match run_items f s l1 with
  | Some (s1, b1) => match run_items f s1 l2 with Some (s2, b2) => Some (s2, b1 ++ b2) | None => None end
  | None => None
  end.
Proof.
  induction l1 as [|a l1 IH]; intros s; simpl.
  - destruct (run_items f s l2) as [[]|]; reflexivity.
  - destruct (f s a) as [[s1 b]|]; [|reflexivity]. rewrite IH. destruct (run_items f s1 l1) as [[s2 b1]|]; [|reflexivity].
    destruct (run_items f s2 l2) as [[s3 b2]|]; reflexivity.
Qed.

(** Calls that do nothing but go through their items, in the states of a class that items do not leave. *)
Lemma parts_of {A} (call : list A -> op) (f : state -> A -> option (state * res N)) e (C : state -> Prop) ls : forall s,
  (forall s a s1 b, C s -> f s a = Some (s1, b) -> C s1) ->
  (forall s k l, C s -> (ls !! k = Some l \/ l = concat (drop k ls)) -> step e (call l) s = ans_batch s (run_items f s l)) ->
  C s -> same_in_parts call e s ls.
Proof.
  induction ls as [|l ls IH]; intros s Keep Sp Cs s' bss F2.
  - apply Forall2_nil_inv_l in F2 as ->. simpl. rewrite (Sp s 0%nat [] Cs) by (right; reflexivity). simpl. split.
    + intros H. injection H as ->. auto.
    + intros [-> _]. reflexivity.
  - apply Forall2_cons_inv_l in F2 as (b & bss' & L & F2 & ->). simpl.
    rewrite (Sp s 0%nat (l ++ concat ls) Cs) by (right; reflexivity).
    rewrite (Sp s 0%nat l Cs) by (left; reflexivity). rewrite run_items_app.
    assert (K : forall s1 bs, run_items f s l = Some (s1, bs) -> C s1).
    { clear -Keep Cs. revert s Cs. induction l as [|a l IH]; intros s Cs s1 bs H; simpl in H; [injection H as <- <-; exact Cs|].
      destruct (f s a) as [[s2 b]|] eqn:Fa; [|discriminate].
      destruct (run_items f s2 l) as [[s3 b3]|] eqn:R; [|discriminate]. injection H as <- <-. eauto. }
    destruct (run_items f s l) as [[s1 b1]|] eqn:R1.
    + pose proof (K s1 b1 eq_refl) as C1. pose proof (run_items_length _ _ _ _ _ R1) as L1. simpl.
      assert (Sp' : forall s k x, C s -> ls !! k = Some x \/ x = concat (drop k ls) -> step e (call x) s = ans_batch s (run_items f s x))
        by (intros t k x Ct X; apply (Sp t (S k)); [exact Ct|exact X]).
      specialize (IH s1 Keep Sp' C1 s' bss' F2). rewrite (Sp' s1 0%nat (concat ls) C1) in IH by (right; reflexivity).
      split.
      * intros H. destruct (run_items f s1 (concat ls)) as [[s2 b2]|] eqn:R2; [|discriminate]. simpl in H.
        injection H as -> E. apply app_inj_1 in E; [|lia]. destruct E as [-> ->].
        destruct (proj1 IH eq_refl) as [I1 I2]. split; [exact I1|]. f_equal. exact I2.
      * intros [H1 H2]. injection H2 as -> H2. specialize (proj2 IH (conj H1 H2)). intros I.
        destruct (run_items f s1 (concat ls)) as [[s2 b2]|]; [|discriminate]. simpl in I. injection I as -> ->. reflexivity.
    + simpl. split; [discriminate|]. intros [_ H]. discriminate.
Qed.

(** ** C171 *)

(** Approvals and delegated transfers: however the items are cut. *)
Theorem C171_approve_tokens e s ls : same_in_parts OApproveTokens e s ls.
Proof. apply (parts_of _ (approve_token e) e (fun _ => True)); auto. Qed.
Print Assumptions C171_approve_tokens.

Theorem C171_approve_collection e s ls : same_in_parts OApproveCollection e s ls.
Proof. apply (parts_of _ (approve_collection e) e (fun _ => True)); auto. Qed.
Print Assumptions C171_approve_collection.

Theorem C171_transfer_from e s ls : same_in_parts OTransferFrom e s ls.
Proof. apply (parts_of _ (transfer_from e) e (fun _ => True)); auto. Qed.
Print Assumptions C171_transfer_from.

Lemma piece_length {A} (ls : list (list A)) k l : ls !! k = Some l \/ l = concat (drop k ls) -> (length l <= length (concat ls))%nat.
Proof.
  intros [H| ->].
  - apply elem_of_list_split_length in H as (l1 & l2 & -> & _). rewrite concat_app. simpl. rewrite !app_length. lia.
  - rewrite <- (take_drop k ls) at 2. rewrite concat_app, app_length. lia.
Qed.

(** Transfers and revocations of collection approvals: as long as all the items fit into one message.
    Missing: more items than that, which are not looked at (C17, C82). *)
Theorem C171_transfer_partial e s ls :
  e_caller e <> anonymous -> default 100 (c_max_update (cfg s)) < two32 ->
  nlen (concat ls) <= default 100 (c_max_update (cfg s)) -> same_in_parts OTransfer e s ls.
Proof.
  intros An U Mx. apply (parts_of _ (transfer_nft e) e (fun x => cfg x = cfg s)); [| |reflexivity].
  - intros x a x1 b Cx H. rewrite <- Cx. eapply transfer_item_cfg; eauto.
  - intros x k l Cx P. apply piece_length in P. cbn [step]. f_equal. unfold icrc7_transfer.
    destruct l as [|a l]; [reflexivity|]. rewrite Cx. change default_max_update with 100. unfold usize_try, two32 in *.
    rewrite (proj2 (N.ltb_lt _ _)) by exact U.
    assert (L : nlen (a :: l) <= default 100 (c_max_update (cfg s))) by (unfold nlen in *; lia).
    replace (default 100 (c_max_update (cfg s)) <? nlen (a :: l)) with false by (symmetry; apply N.ltb_ge; exact L).
    rewrite andb_false_r, bool_decide_eq_false_2 by exact An. rewrite take_n_at_most by exact L. reflexivity.
Qed.
Print Assumptions C171_transfer_partial.

Theorem C171_revoke_collection_partial e s ls :
  nlen (concat ls) <= max_revocations s -> same_in_parts ORevokeCollection e s ls.
Proof.
  intros Mx. apply (parts_of _ (revoke_collection_approvals e) e (fun x => cfg x = cfg s)); [| |reflexivity].
  - intros x a x1 b Cx H. rewrite <- Cx. eapply revoke_coll_item_cfg; eauto.
  - intros x k l Cx P. apply piece_length in P. cbn [step]. f_equal. unfold icrc37_revoke_collection_approvals.
    rewrite take_n_at_most; [reflexivity|]. rewrite <- max_revocations_eq in Mx.
    rewrite Cx. unfold nlen in *. lia.
Qed.
Print Assumptions C171_revoke_collection_partial.

(** Refuted for the revocation of token approvals: the limiter counts the message, for its first item, instead of the items;
    revoking ten times at once is answered, one by one it is not. *)
Theorem C171_revoke_tokens_refuted :
  exists s e ls, reachable s /\ nlen (concat ls) <= max_revocations s /\ ~ same_in_parts ORevokeTokens e s ls.
Proof.
  exists demo2, (from_ alice 3000000000), (repeat [mkRevokeArg None None 2 None None] 10).
  split; [apply demo_reachable|]. split; [vm_compute; discriminate|]. intros H.
  specialize (H (fst (step (from_ alice 3000000000) (ORevokeTokens (repeat (mkRevokeArg None None 2 None None) 10)) demo2))
                (repeat [Err EApprovalDoesNotExist] 10)).
  assert (F : Forall2 (fun (l : list revoke_arg) (bs : list (res N)) => length bs = length l)
                (repeat [mkRevokeArg None None 2 None None] 10) (repeat [Err EApprovalDoesNotExist] 10))
    by (repeat constructor).
  specialize (H F). apply proj1 in H.
  assert (Y : map ev_ans (trace (one_by_one ORevokeTokens (from_ alice 3000000000) (repeat [mkRevokeArg None None 2 None None] 10)) demo2) =
              map ABatch (repeat [Err EApprovalDoesNotExist] 10)).
  { apply H. rewrite (surjective_pairing (step _ _ _)). f_equal. }
  revert Y. vm_compute. discriminate.
Qed.
Print Assumptions C171_revoke_tokens_refuted.

(** Three transfers, and two approvals with one refused between them, in one message and in two. *)
Example C171_example :
  let e := from_ alice 3000000000 in
  let ls := [[xfer bob 1; xfer bob 1]; [xfer carol 2]] in
  let ks := [[appr 1 carol 3000000000 None]; [appr 3 carol 3000000000 None; appr 2 carol 3000000000 None]] in
  e_caller e <> anonymous /\ default 100 (c_max_update (cfg demo2)) < two32 /\
  nlen (concat ls) <= default 100 (c_max_update (cfg demo2)) /\
  snd (step e (OTransfer (concat ls)) demo2) = ABatch [Ok 5; Err EInvalidRecipient; Ok 6] /\
  map ev_ans (trace (one_by_one OTransfer e ls) demo2) = [ABatch [Ok 5; Err EInvalidRecipient]; ABatch [Ok 6]] /\
  snd (step e (OApproveTokens (concat ks)) demo2) = ABatch [Ok 5; Err EUnauthorized; Ok 6] /\
  map ev_ans (trace (one_by_one OApproveTokens e ks) demo2) = [ABatch [Ok 5]; ABatch [Err EUnauthorized; Ok 6]].
Proof. splits; try (vm_compute; reflexivity); vm_compute; discriminate. Qed.
