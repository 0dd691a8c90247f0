(** C166: whatever the ledger keeps has its block. *)
From Verif Require Import Base ModelPrincipal ModelState ModelIcrc7 ModelIcrc37 ModelManagement ModelLifecycle
  ModelQueries ModelStep ProofsItems ProofsManage ProofsMicro ProofsCore Spec Scenario PropertiesMeta.
Local Open Scope nat_scope.

(** Number of approvals in all the maps of [M]. *)
Definition in_all {K} `{Countable K} (M : gmap K appmap) : nat := map_fold (fun _ m n => size m + n) 0 M.
(** Number of blocks of a kind. *)
Fixpoint blocks (kind : string) (l : list (N * tx)) : nat :=
  match l with [] => 0 | (_, t) :: l => (if String.eqb (tx_btype t) kind then 1 else 0) + blocks kind l end.

Section maps.
  Context {K : Type} `{Countable K}.
  Implicit Types M : gmap K appmap.

  Lemma in_all_new M (k : K) (m : appmap) : M !! k = None -> in_all (<[k := m]> M) = size m + in_all M.
  Proof.
    intros E. unfold in_all. rewrite map_fold_insert_L; [reflexivity| |exact E]. intros. lia.
  Qed.
  Lemma in_all_split M (k : K) : in_all M = size (default ∅ (M !! k)) + in_all (delete k M).
  Proof.
    destruct (M !! k) as [m|] eqn:E.
    - rewrite <- (insert_delete M k m E) at 1. rewrite in_all_new by apply lookup_delete. reflexivity.
    - rewrite delete_notin by exact E. reflexivity.
  Qed.
  Lemma in_all_put M (k : K) (m : appmap) : in_all (<[k := m]> M) + size (default ∅ (M !! k)) = size m + in_all M.
  Proof.
    rewrite (in_all_split (<[k := m]> M) k), (in_all_split M k), lookup_insert, delete_insert_delete. cbn. lia.
  Qed.
  Lemma in_all_delete M (k : K) : in_all (delete k M) <= in_all M.
  Proof. rewrite (in_all_split M k). lia. Qed.
  Lemma size_put (sp : account) (a : approval) (m : appmap) : size (appmap_insert sp a m) <= S (size m).
  Proof.
    unfold appmap_insert. destruct (m !! akey sp) as [[y b]|] eqn:E; rewrite map_size_insert, E; cbn; lia.
  Qed.
  Lemma size_revoke (sp : option account) (m : appmap) : size (revoke_from sp m) <= size m.
  Proof.
    unfold revoke_from. destruct sp as [sp|]; [rewrite map_size_delete; destruct (m !! akey sp); cbn; lia|rewrite map_size_empty; lia].
  Qed.
  Lemma in_all_insert M (k : K) (sp : account) (a : approval) : in_all (<[k := appmap_insert sp a (default ∅ (M !! k))]> M) <= S (in_all M).
  Proof.
    pose proof (in_all_put M k (appmap_insert sp a (default ∅ (M !! k)))). pose proof (size_put sp a (default ∅ (M !! k))). lia.
  Qed.
  Lemma in_all_revoke M (k : K) (sp : option account) (m : appmap) : M !! k = Some m -> in_all (<[k := revoke_from sp m]> M) <= in_all M.
  Proof.
    intros E. pose proof (in_all_put M k (revoke_from sp m)) as P. rewrite E in P. cbn in P. pose proof (size_revoke sp m). lia.
  Qed.
  Lemma in_all_drop M (now : N) (k : K) (sp : acckey) : in_all (drop_expired now k sp M) <= in_all M.
  Proof.
    unfold drop_expired. destruct (M !! k) as [m|] eqn:E; [|lia]. destruct (m !! sp) as [[y ap]|] eqn:F; [|lia].
    destruct (unexpired now ap); [lia|]. pose proof (in_all_put M k (delete sp m)) as P. rewrite E in P. cbn in P.
    rewrite map_size_delete, F in P. cbn in P. lia.
  Qed.
End maps.

Lemma size_mint id l T : size (mint_tokens id l T) <= length l + size T.
Proof.
  revert id T. induction l as [|r l IH]; intros id T; cbn; [lia|].
  etransitivity; [apply IH|]. rewrite map_size_insert. destruct (T !! id); cbn; lia.
Qed.

Lemma blocks_app k l l' : blocks k (l ++ l') = blocks k l + blocks k l'.
Proof. induction l as [|[i t] l IH]; cbn; [reflexivity|]. rewrite IH. lia. Qed.
Lemma blocks_mint (idxs : list N) now id l : length idxs = length l -> blocks "7mint" (zip idxs (mint_txs now id l)) = length l.
Proof.
  revert idxs id. induction l as [|r l IH]; intros [|i idxs] id E; try discriminate E; [reflexivity|]. cbn. f_equal. apply IH. cbn in E. lia.
Qed.

(** How far the records of each kind are below the blocks of their kind does not shrink. *)
Definition covered (s s' : state) : Prop :=
  size (tokens s') + blocks "7mint" (log s) <= size (tokens s) + blocks "7mint" (log s') /\
  in_all (tok_appr s') + blocks "37approve" (log s) <= in_all (tok_appr s) + blocks "37approve" (log s') /\
  in_all (col_appr s') + blocks "37approve_coll" (log s) <= in_all (col_appr s) + blocks "37approve_coll" (log s').
Lemma covered_same s s' : tokens s' = tokens s -> tok_appr s' = tok_appr s -> col_appr s' = col_appr s -> log s' = log s -> covered s s'.
Proof. intros E1 E2 E3 E4. unfold covered. rewrite E1, E2, E3, E4. lia. Qed.

Lemma records_micro e o s s' : wf s -> micro e o s s' -> covered s s'.
Proof.
  intros W H. destruct H as [o s s' Q|l a nft i s s1 A Q T O An Ne Nc _|l a ow i s s1 A Q T O An _|l a i s s1 A Q An T _
    |l a ow m i s s1 A Q T O M|l a m i s s1 A Q M|l a nft s s1 A Q T|l a nft i s s1 A Q T Ne An O V|u s G P|l m ix n s G P X L
    |l m ix n s G P C S X L|t kvs tok m n s G P T R|t kvs tok m n i s G P T R|t tok n i s G T O|q r s G P|q r s G P
    |o key u s _ _ _ _ _ _|o p s _ _ _ _|id r p s E|s].
  - destruct Q as (w & n & ->). apply covered_same; reflexivity.
  - destruct Q as (w & n & ->). unfold covered. cbn. rewrite (wf_id _ W _ _ T), !blocks_app, map_size_insert, T. cbn. lia.
  - destruct Q as (w & n & ->). unfold covered. cbn. rewrite !blocks_app. cbn. pose proof (in_all_insert (tok_appr s) (ap_tid a) (ai_spender (ap_info a))
      (new_approval (ap_info a) (mkAcc (e_caller e) (ai_from_sub (ap_info a))) (e_now e))). cbn in *. lia.
  - destruct Q as (w & n & ->). unfold covered. cbn. rewrite !blocks_app. cbn.
    pose proof (in_all_insert (col_appr s) (akey (mkAcc (e_caller e) (ai_from_sub a))) (ai_spender a)
      (new_approval a (mkAcc (e_caller e) (ai_from_sub a)) (e_now e))). cbn in *. lia.
  - destruct Q as (w & n & ->). unfold covered. cbn. rewrite !blocks_app. cbn.
    pose proof (in_all_revoke (tok_appr s) (rv_tid a) (rv_spender a) m M). lia.
  - destruct Q as (w & n & ->). unfold covered. cbn. rewrite !blocks_app. cbn.
    pose proof (in_all_revoke (col_appr s) _ (rc_spender a) m M) as Z. cbn in *. lia.
  - destruct Q as (w & n & ->). unfold covered. cbn.
    pose proof (in_all_drop (tok_appr s) (e_now e) (tf_tid a) (akey (mkAcc (e_caller e) (tf_spender_sub a)))).
    pose proof (in_all_drop (col_appr s) (e_now e) (akey (t_owner nft)) (akey (mkAcc (e_caller e) (tf_spender_sub a)))). cbn in *. lia.
  - destruct Q as (w & n & ->). subst s2 s3 s4. unfold covered. cbn. rewrite (wf_id _ W _ _ T), !blocks_app, map_size_insert, T. cbn.
    pose proof (in_all_drop (tok_appr s) (e_now e) (tf_tid a) (akey (mkAcc (e_caller e) (tf_spender_sub a)))).
    pose proof (in_all_drop (col_appr s) (e_now e) (akey (t_owner nft)) (akey (mkAcc (e_caller e) (tf_spender_sub a)))).
    pose proof (in_all_delete (drop_expired (e_now e) (tf_tid a) (akey (mkAcc (e_caller e) (tf_spender_sub a))) (tok_appr s)) (tf_tid a)).
    pose proof (in_all_delete (drop_expired (e_now e) (akey (t_owner nft)) (akey (mkAcc (e_caller e) (tf_spender_sub a))) (col_appr s)) (akey (tf_from a))).
    cbn in *. lia.
  - apply covered_same; reflexivity.
  - unfold covered. cbn. rewrite !blocks_app. lia.
  - unfold covered. cbn. rewrite !blocks_app, blocks_mint by exact L. pose proof (size_mint (last_id s) l (tokens s)). lia.
  - apply covered_same; reflexivity.
  - unfold covered. cbn. rewrite !blocks_app. lia.
  - unfold covered. cbn. rewrite !blocks_app, map_size_delete, T. cbn. lia.
  - apply covered_same; reflexivity.
  - apply covered_same; reflexivity.
  - apply covered_same; reflexivity.
  - apply covered_same; reflexivity.
  - apply covered_same; destruct p, r; reflexivity.
  - apply covered_same; reflexivity.
Qed.

Lemma covered_trans s1 s2 s3 : covered s1 s2 -> covered s2 s3 -> covered s1 s3.
Proof. unfold covered. lia. Qed.

(** ** The claim *)

(** One message: every new record comes with a block of its kind. *)
Theorem C166_step_partial e o s : reachable s -> covered s (fst (step e o s)).
Proof.
  intros Re. pose proof (reachable_wf _ Re) as W. pose proof (step_micros e o s) as M. clear Re. revert W.
  induction M as [s|s s1 s' X M IH]; intros W; [unfold covered; lia|].
  eapply covered_trans; [eapply records_micro; eauto|]. apply IH. eapply wf_micro; eauto.
Qed.

(** So there are never more tokens, approvals of tokens and approvals of collections than blocks that tell of their making. *)
Theorem C166_bound_partial s : reachable s ->
  size (tokens s) <= blocks "7mint" (log s) /\
  in_all (tok_appr s) <= blocks "37approve" (log s) /\ in_all (col_appr s) <= blocks "37approve_coll" (log s).
Proof.
  intros (c & u & a & s0 & h & I & ->).
  assert (G : forall h, covered s0 (run h s0)).
  { clear h. intros h. induction h as [|[e o] h IH] using rev_ind; [cbn [run]; unfold covered; lia|]. rewrite run_app. cbn [run].
    eapply covered_trans; [exact IH|]. apply C166_step_partial. exists c, u, a, s0, h. auto. }
  specialize (G h). destruct (init_inv _ _ _ _ I) as (_ & _ & _ & _ & E).
  assert (tokens s0 = ∅ /\ tok_appr s0 = ∅ /\ col_appr s0 = ∅ /\ log s0 = []) as (E1 & E2 & E3 & E4) by (rewrite E; auto).
  unfold covered in G. rewrite E1, E2, E3, E4 in G. unfold in_all in G at 2 4. rewrite map_size_empty, !map_fold_empty in G. cbn in G. lia.
Qed.

(** Not so for metadata: a mint that the log refuses leaves them, without a block; see C45. *)
Theorem C166_metadata_refuted :
  let s := fst (step (with_log no_log (from_ admin 0)) mint3 demo0) in
  reachable s /\ log s = [] /\ size (metas s) = 1.
Proof. split; [eexists _, _, _, _, [(with_log no_log (from_ admin 0), mint3)]; split; [exact demo0_init|reflexivity]|]. split; vm_compute; reflexivity. Qed.

(** ** Examples *)

(** Equal after the approvals of the scenario; when carol has taken token 2 and bob has burned token 3, fewer records than blocks. *)
Example C166_example :
  let s' := run [(from_ carol 3000000000, OTransferFrom [tfrom alice carol 2]); (from_ bob 4000000000, OBurn 3)] demo2 in
  reachable demo2 /\
  (size (tokens demo2), blocks "7mint" (log demo2)) = (3, 3) /\ (in_all (tok_appr demo2), blocks "37approve" (log demo2)) = (1, 1) /\
  (in_all (col_appr demo2), blocks "37approve_coll" (log demo2)) = (1, 1) /\
  (size (tokens s'), blocks "7mint" (log s')) = (2, 3) /\ (in_all (tok_appr s'), blocks "37approve" (log s')) = (1, 1) /\
  (in_all (col_appr s'), blocks "37approve_coll" (log s')) = (0, 1).
Proof. split; [exact (demo_reachable demo2_h)|]. split; [|split; [|split; [|split; [|split]]]]; vm_compute; reflexivity. Qed.

Print Assumptions C166_step_partial.
Print Assumptions C166_bound_partial.
Print Assumptions C166_metadata_refuted.
