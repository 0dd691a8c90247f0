(** C162: an approval is good for one transfer at most. *)
From Verif Require Import Base ModelPrincipal ModelState ModelIcrc7 ModelIcrc37 ModelManagement ModelLifecycle
  ModelQueries ModelStep ProofsItems ProofsManage ProofsMicro ProofsCore Spec Scenario PropertiesForce.

(** Number of the items of a call that were done and are of some kind. *)
Fixpoint done {A} (P : A -> bool) (l : list A) (rs : list (res N)) : nat :=
  match l, rs with
  | a :: l, r :: rs => (match r with Ok _ => if P a then 1 else 0 | Err _ => 0 end) + done P l rs
  | _, _ => 0
  end%nat.

(** Approvals given to the spender [k] by a message, for tokens and for collections. *)
Definition given_to (k : acckey) (ev : event) : nat :=
  match ev_op ev, ev_ans ev with
  | OApproveTokens l, ABatch rs => done (fun a => bool_decide (akey (ai_spender (ap_info a)) = k)) l rs
  | OApproveCollection l, ABatch rs => done (fun a => bool_decide (akey (ai_spender a) = k)) l rs
  | _, _ => 0%nat
  end.

(** Tokens of others that the spender [k] moved by a message. *)
Definition taken_by (k : acckey) (ev : event) : nat :=
  match ev_op ev, ev_ans ev with
  | OTransferFrom l, ABatch rs =>
      done (fun a => bool_decide (akey (mkAcc (e_caller (ev_env ev)) (tf_spender_sub a)) = k) &&
                     negb (bool_decide (akey (tf_from a) = k))) l rs
  | _, _ => 0%nat
  end.

(** Their numbers over a whole trace. *)
Definition all_given (k : acckey) (tr : list event) : nat := sum_list_with (given_to k) tr.
(** See [all_given]. *)
Definition all_taken (k : acckey) (tr : list event) : nat := sum_list_with (taken_by k) tr.

(** Approvals of the spender [k] that are kept: for tokens and for collections. *)
Definition kept {K} `{Countable K} (k : acckey) (M : gmap K appmap) : nat := size (omap (fun m : appmap => m !! k) M).
(** See [kept]. *)
Definition in_hand (k : acckey) (s : state) : nat := (kept k (tok_appr s) + kept k (col_appr s))%nat.

Section maps.
  Context {K : Type} `{Countable K}.
  Implicit Types M : gmap K appmap.

  Lemma kept_delete k i M : (kept k (delete i M) <= kept k M)%nat.
  Proof.
    unfold kept. rewrite omap_delete. rewrite map_size_delete. destruct (omap _ M !! i); cbn; lia.
  Qed.
  Lemma kept_delete_lt k i M m x : M !! i = Some m -> m !! k = Some x -> (S (kept k (delete i M)) <= kept k M)%nat.
  Proof.
    intros E F. unfold kept. rewrite omap_delete.
    assert (L : omap (fun m : appmap => m !! k) M !! i = Some x) by (rewrite lookup_omap, E; exact F).
    rewrite map_size_delete, L. cbn.
    assert (size (omap (fun m : appmap => m !! k) M) <> 0)%nat; [|lia].
    intros Z. apply map_size_empty_inv in Z. rewrite Z, lookup_empty in L. discriminate.
  Qed.
  Lemma kept_insert k i m M : (kept k (<[i := m]> M) <= S (kept k M))%nat.
  Proof.
    unfold kept. rewrite omap_insert. destruct (m !! k) as [x|].
    - rewrite map_size_insert. destruct (omap _ M !! i); cbn; lia.
    - rewrite map_size_delete. destruct (omap _ M !! i); cbn; lia.
  Qed.
  Lemma kept_insert_keep k i m M :
    (forall x, m !! k = Some x -> exists m0 y, M !! i = Some m0 /\ m0 !! k = Some y) -> (kept k (<[i := m]> M) <= kept k M)%nat.
  Proof.
    intros X. unfold kept. rewrite omap_insert. destruct (m !! k) as [x|] eqn:E.
    - destruct (X x eq_refl) as (m0 & y & E0 & F). rewrite map_size_insert, lookup_omap, E0. cbn. rewrite F. reflexivity.
    - rewrite map_size_delete. destruct (omap _ M !! i); cbn; lia.
  Qed.
  Lemma kept_drop now k i sp M : (kept k (drop_expired now i sp M) <= kept k M)%nat.
  Proof.
    unfold drop_expired. destruct (M !! i) as [m|] eqn:E; [|lia]. destruct (m !! sp) as [[y ap]|] eqn:F; [|lia].
    destruct (unexpired now ap); [lia|]. apply kept_insert_keep. intros x G. rewrite lookup_delete_Some in G. destruct G as [_ G]. eauto.
  Qed.
  Lemma drop_valid now i sp M : has_valid now (M !! i) sp = true -> drop_expired now i sp M = M.
  Proof.
    unfold has_valid, drop_expired. destruct (M !! i) as [m|]; [|discriminate]. destruct (m !! sp) as [[y ap]|]; [|discriminate].
    intros ->. reflexivity.
  Qed.
  Lemma has_valid_some now i sp M : has_valid now (M !! i) sp = true -> exists m x, M !! i = Some m /\ m !! sp = Some x.
  Proof.
    unfold has_valid. destruct (M !! i) as [m|] eqn:E; [|discriminate]. destruct (m !! sp) as [x|] eqn:F; [|discriminate]. eauto.
  Qed.
End maps.

Lemma quiet_in_hand k s s' : quiet s s' -> in_hand k s' = in_hand k s.
Proof. intros Q. unfold in_hand. rewrite (quiet_tok_appr _ _ Q), (quiet_col_appr _ _ Q). reflexivity. Qed.

Lemma insert_keeps {K} `{Countable K} (k : acckey) (i : K) (sp : account) (ap : approval) (M : gmap K appmap) :
  (kept k (<[i := appmap_insert sp ap (default ∅ (M !! i))]> M) <= kept k M + if bool_decide (akey sp = k) then 1 else 0)%nat.
Proof.
  case_bool_decide as D.
  - pose proof (kept_insert k i (appmap_insert sp ap (default ∅ (M !! i))) M). lia.
  - rewrite Nat.add_0_r. apply kept_insert_keep. intros x E.
    destruct (insert_lookup sp ap (default ∅ (M !! i)) k) as [y L]. rewrite L in E. rewrite decide_False in E by congruence.
    destruct (M !! i) as [m|]; [|cbn in E; rewrite lookup_empty in E; discriminate]. cbn in E. eauto.
Qed.
Lemma revoke_keeps {K} `{Countable K} (k : acckey) (i : K) (sp : option account) (m : appmap) (M : gmap K appmap) :
  M !! i = Some m -> (kept k (<[i := revoke_from sp m]> M) <= kept k M)%nat.
Proof.
  intros E. apply kept_insert_keep. intros x F. exists m. unfold revoke_from in F. destruct sp as [sp|].
  - rewrite lookup_delete_Some in F. destruct F as [_ F]. eauto.
  - rewrite lookup_empty in F. discriminate.
Qed.

(** ** One item *)

(** One item of [done]. *)
Definition one {A} (P : A -> bool) (a : A) (r : res N) : nat := match r with Ok _ => if P a then 1 else 0 | Err _ => 0 end%nat.

Lemma approve_item k e s a s' r : approve_token e s a = Some (s', r) ->
  (in_hand k s' <= in_hand k s + one (fun a => bool_decide (akey (ai_spender (ap_info a)) = k)) a r)%nat.
Proof.
  intros H. apply approve_token_inv in H as [(Q & er & ->)|(s1 & i & ow & -> & Q & _ & _ & _ & _ & _ & ->)].
  - rewrite (quiet_in_hand k _ _ Q). lia.
  - unfold in_hand, one. cbn. rewrite (quiet_col_appr _ _ Q).
    pose proof (insert_keeps k (ap_tid a) (ai_spender (ap_info a))
      (new_approval (ap_info a) (mkAcc (e_caller e) (ai_from_sub (ap_info a))) (e_now e)) (tok_appr s)). lia.
Qed.
Lemma approve_collection_item k e s a s' r : approve_collection e s a = Some (s', r) ->
  (in_hand k s' <= in_hand k s + one (fun a => bool_decide (akey (ai_spender a) = k)) a r)%nat.
Proof.
  intros H. apply approve_collection_inv in H as [(Q & er & ->)|(s1 & i & -> & Q & _ & _ & _ & _ & ->)].
  - rewrite (quiet_in_hand k _ _ Q). lia.
  - unfold in_hand, one. cbn [set_col_appr set_log tok_appr col_appr]. rewrite (quiet_tok_appr _ _ Q).
    pose proof (insert_keeps k (akey (mkAcc (e_caller e) (ai_from_sub a))) (ai_spender a)
      (new_approval a (mkAcc (e_caller e) (ai_from_sub a)) (e_now e)) (col_appr s)). lia.
Qed.
Lemma revoke_item k e s a s' (r : res N) : revoke_token_approvals e s a = Some (s', r) -> (in_hand k s' <= in_hand k s)%nat.
Proof.
  intros H. apply revoke_token_inv in H as [(Q & _)|(s1 & i & ow & m & -> & Q & _ & _ & T & _ & ->)].
  - rewrite (quiet_in_hand k _ _ Q). lia.
  - unfold in_hand. cbn. rewrite (quiet_col_appr _ _ Q). pose proof (revoke_keeps k (rv_tid a) (rv_spender a) m (tok_appr s) T). lia.
Qed.
Lemma revoke_collection_item k e s a s' (r : res N) : revoke_collection_approvals e s a = Some (s', r) -> (in_hand k s' <= in_hand k s)%nat.
Proof.
  intros H. apply revoke_collection_inv in H as [(Q & _)|(s1 & i & m & -> & Q & T & _ & ->)].
  - rewrite (quiet_in_hand k _ _ Q). lia.
  - unfold in_hand. cbn [set_col_appr set_log tok_appr col_appr]. rewrite (quiet_tok_appr _ _ Q).
    pose proof (revoke_keeps k (akey (mkAcc (e_caller e) None)) (rc_spender a) m (col_appr s) T). lia.
Qed.

Lemma drop_both_in_hand k now a sp ow s : (in_hand k (drop_both now a sp ow s) <= in_hand k s)%nat.
Proof.
  unfold in_hand, drop_both. cbn [set_col_appr set_tok_appr tok_appr col_appr].
  pose proof (kept_drop now k (tf_tid a) (akey sp) (tok_appr s)). pose proof (kept_drop now k (akey ow) (akey sp) (col_appr s)). lia.
Qed.

Lemma transfer_from_item k e s a s' r : transfer_from e s a = Some (s', r) ->
  (in_hand k s' + one (fun a => bool_decide (akey (mkAcc (e_caller e) (tf_spender_sub a)) = k) && negb (bool_decide (akey (tf_from a) = k))) a r
   <= in_hand k s)%nat.
Proof.
  intros H. apply transfer_from_inv in H as
    [(Q & er & ->)|[(nft & s1 & er & -> & Q & _ & ->)|(nft & s1 & i & -> & Q & _ & _ & _ & _ & O & V & ->)]].
  - rewrite (quiet_in_hand k _ _ Q). cbn. lia.
  - cbn [one]. rewrite <- (quiet_in_hand k _ _ Q).
    pose proof (drop_both_in_hand k (e_now e) a (mkAcc (e_caller e) (tf_spender_sub a)) (t_owner nft) s1). lia.
  - unfold in_hand, one, drop_both.
    cbn [set_col_appr set_tok_appr set_log set_tokens set_by_owner move_token tok_appr col_appr].
    rewrite (quiet_tok_appr _ _ Q), (quiet_col_appr _ _ Q). rewrite O in V |- *.
    set (sp := akey (mkAcc (e_caller e) (tf_spender_sub a))) in *. set (f := akey (tf_from a)) in *.
    pose proof (kept_drop (e_now e) k (tf_tid a) sp (tok_appr s)) as D1. pose proof (kept_drop (e_now e) k f sp (col_appr s)) as D2.
    pose proof (kept_delete k (tf_tid a) (drop_expired (e_now e) (tf_tid a) sp (tok_appr s))) as E1.
    pose proof (kept_delete k f (drop_expired (e_now e) f sp (col_appr s))) as E2.
    case_bool_decide as B1; [|cbn; lia]. case_bool_decide as B2; [cbn; lia|]. cbn [negb andb]. subst k.
    destruct V as [V|[V|V]]; [congruence| |].
    + destruct (has_valid_some _ _ _ _ V) as (m & x & T & X).
      rewrite (drop_valid _ _ _ _ V) in *. pose proof (kept_delete_lt sp (tf_tid a) _ m x T X). lia.
    + destruct (has_valid_some _ _ _ _ V) as (m & x & T & X).
      rewrite (drop_valid _ f _ _ V) in *. pose proof (kept_delete_lt sp f _ m x T X). lia.
Qed.

(** ** One message *)

Lemma items_up {A} (f : state -> A -> option (state * res N)) P k :
  (forall s a s' r, f s a = Some (s', r) -> (in_hand k s' <= in_hand k s + one P a r)%nat) ->
  forall l s s' rs, run_items f s l = Some (s', rs) -> (in_hand k s' <= in_hand k s + done P l rs)%nat.
Proof.
  intros F l. induction l as [|a l IH]; intros s s' rs H; cbn [run_items] in H.
  - injection H as <- <-. cbn. lia.
  - destruct (f s a) as [[s1 r]|] eqn:E; [|discriminate]. destruct (run_items f s1 l) as [[s2 rs']|] eqn:R; [|discriminate].
    injection H as <- <-. specialize (IH _ _ _ R). apply F in E. cbn [done]. unfold one in E. lia.
Qed.
Lemma items_down {A} (f : state -> A -> option (state * res N)) P k :
  (forall s a s' r, f s a = Some (s', r) -> (in_hand k s' + one P a r <= in_hand k s)%nat) ->
  forall l s s' rs, run_items f s l = Some (s', rs) -> (in_hand k s' + done P l rs <= in_hand k s)%nat.
Proof.
  intros F l. induction l as [|a l IH]; intros s s' rs H; cbn [run_items] in H.
  - injection H as <- <-. cbn. lia.
  - destruct (f s a) as [[s1 r]|] eqn:E; [|discriminate]. destruct (run_items f s1 l) as [[s2 rs']|] eqn:R; [|discriminate].
    injection H as <- <-. specialize (IH _ _ _ R). apply F in E. cbn [done]. unfold one in E. lia.
Qed.
Lemma done_false {A} (l : list A) rs : done (fun _ => false) l rs = 0%nat.
Proof. revert rs. induction l as [|a l IH]; intros [|[?|?] rs]; cbn; auto. Qed.

(** Every transfer that a spender makes of a token of somebody else uses up one of their approvals, and only approvals given to them
    add to these. *)
Theorem C162_step k e o s s' a : step e o s = (s', a) ->
  (taken_by k (mkEv s e o a s') + in_hand k s' <= in_hand k s + given_to k (mkEv s e o a s'))%nat.
Proof.
  intros H. destruct (other_call o) eqn:F.
  { destruct (other_same e o s F) as [T C]. rewrite H in T, C. cbn [fst] in T, C. unfold in_hand. rewrite T, C.
    destruct o; try discriminate F; cbn; lia. }
  unfold taken_by, given_to. cbn [ev_op ev_ans ev_env].
  destruct o; try discriminate F; cbn [step] in H.
  - unfold icrc37_approve_tokens in H. destruct (run_items _ _ _) as [[s1 rs]|] eqn:R; cbn [ans_batch] in H; injection H as <- <-; [|lia].
    apply (items_up _ _ k (fun s a s' r => approve_item k e s a s' r)) in R. lia.
  - unfold icrc37_approve_collection in H. destruct (run_items _ _ _) as [[s1 rs]|] eqn:R; cbn [ans_batch] in H; injection H as <- <-; [|lia].
    apply (items_up _ _ k (fun s a s' r => approve_collection_item k e s a s' r)) in R. lia.
  - assert (in_hand k s' <= in_hand k s)%nat; [|destruct a; lia].
    unfold icrc37_revoke_token_approvals in H. destruct args as [|a0 l]; [injection H as <- <-; lia|].
    destruct (guard_sliding_window _ _ _) as [s1 pass] eqn:G. pose proof (guard_quiet _ _ _ _ _ G) as Q.
    destruct pass; cbn [negb] in H; [|injection H as <- <-; rewrite (quiet_in_hand k _ _ Q); lia].
    destruct (run_items _ _ _) as [[s2 rs]|] eqn:R; injection H as <- <-; [|lia].
    apply (items_up _ (fun _ => false) k) in R.
    + rewrite done_false, (quiet_in_hand k _ _ Q) in R. lia.
    + intros z b z' r X. apply (revoke_item k) in X. lia.
  - assert (in_hand k s' <= in_hand k s)%nat; [|destruct a; lia].
    unfold icrc37_revoke_collection_approvals in H. destruct (run_items _ _ _) as [[s1 rs]|] eqn:R; cbn [ans_batch] in H; injection H as <- <-; [|lia].
    apply (items_up _ (fun _ => false) k) in R.
    + rewrite done_false in R. lia.
    + intros z b z' r X. apply (revoke_collection_item k) in X. lia.
  - unfold icrc37_transfer_from in H. destruct (run_items _ _ _) as [[s1 rs]|] eqn:R; cbn [ans_batch] in H; injection H as <- <-; [|lia].
    apply (items_down _ _ k (fun s a s' r => transfer_from_item k e s a s' r)) in R. lia.
Qed.
Print Assumptions C162_step.

(** So in any history a spender moves at most as many tokens of others as they held approvals and were given. *)
Theorem C162_history k h s : (all_taken k (trace h s) + in_hand k (run h s) <= in_hand k s + all_given k (trace h s))%nat.
Proof.
  revert s. induction h as [|[e o] h IH]; intros s; cbn [trace run]; [cbn; lia|].
  destruct (step e o s) as [s' a] eqn:E. pose proof (C162_step k e o s s' a E) as X. specialize (IH s').
  unfold all_taken, all_given in *. cbn [sum_list_with fst] in *. lia.
Qed.
Print Assumptions C162_history.

(** From the installation on: never more transfers for others than approvals received. *)
Theorem C162_installed k caller url_ok a s0 h :
  init caller url_ok a = Some s0 -> (all_taken k (trace h s0) <= all_given k (trace h s0))%nat.
Proof.
  intros I. pose proof (C162_history k h s0) as X. pose proof (init_last_id _ _ _ _ I) as (_ & _ & _ & TA & CA & _).
  assert (in_hand k s0 = 0)%nat as E; [|lia]. unfold in_hand. rewrite TA, CA. reflexivity.
Qed.
Print Assumptions C162_installed.

(** ** Examples *)

(** carol, approved for the collection of alice, takes token 2, but not token 1 too; bob, approved for token 1, takes that, gives it
    back and cannot take it again. *)
Definition spending : history :=
  demo2_h ++
  [(from_ carol 3000000000, OTransferFrom [tfrom alice carol 2; tfrom alice carol 1]);
   (from_ bob 4000000000, OTransferFrom [tfrom alice bob 1]);
   (from_ bob 6000000000, OTransfer [xfer alice 1]);
   (from_ bob 9000000000, OTransferFrom [tfrom alice bob 1])].
Example C162_example :
  all_given (akey (acct carol)) (trace spending demo0) = 1%nat /\ all_taken (akey (acct carol)) (trace spending demo0) = 1%nat /\
  all_given (akey (acct bob)) (trace spending demo0) = 1%nat /\ all_taken (akey (acct bob)) (trace spending demo0) = 1%nat /\
  map ev_ans (drop 3 (trace spending demo0)) =
    [ABatch [Ok 5; Err EUnauthorized]; ABatch [Ok 6]; ABatch [Ok 7]; ABatch [Err EUnauthorized]].
Proof. split; [|split; [|split; [|split]]]; vm_compute; reflexivity. Qed.

(** Both approvals are in hand at first, none at the end. *)
Example C162_example_hand :
  in_hand (akey (acct carol)) demo2 = 1%nat /\ in_hand (akey (acct bob)) demo2 = 1%nat /\
  in_hand (akey (acct carol)) (run spending demo0) = 0%nat /\ in_hand (akey (acct bob)) (run spending demo0) = 0%nat.
Proof. split; [|split; [|split]]; vm_compute; reflexivity. Qed.
