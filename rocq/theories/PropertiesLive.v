(** C83-C86: calls that meet the stated conditions succeed. *)
From Verif Require Import Base ModelPrincipal ModelState ModelIcrc7 ModelIcrc37 ModelManagement ModelLifecycle
  ModelQueries ModelStep ProofsItems ProofsManage ProofsMicro Spec ProofsCore ProofsOwner ProofsTime ProofsLog ProofsRate
  ProofsApprovals ProofsLock ProofsMeta Scenario PropertiesBatch.

(** A point in time of a canister: installation, messages so far in order of time, and the present. *)
Definition now_at (h : history) (now : N) (s0 : state) : Prop :=
  (exists caller url_ok a, init caller url_ok a = Some s0) /\ times_ok h /\ Forall (fun x => e_now (fst x) <= now) h.

(** Fewer than five calls about [tid] passed the rate limiter during the last 60 ms. *)
Definition idle (h : history) (now tid : N) (s0 : state) : Prop :=
  (length (filter (fun t => (now < t + 60000000)%N) (passes tid (all_attempts (trace h s0)))) < 5)%nat.

(** No management call is waiting, and none was interrupted by an upgrade. *)
Definition unlocked (h : history) (s0 : state) : Prop := calm (trace h s0) /\ pend (run h s0) = ∅.

Lemma trace_win_inv tid B h : forall s L T,
  times_ok h -> (forall e o, (e, o) ∈ h -> T <= e_now e <= B) -> T <= B ->
  win_inv tid (passes tid L) T (windows s) -> justified tid L ->
  win_inv tid (passes tid (L ++ all_attempts (trace h s))) B (windows (run h s)).
Proof.
  induction h as [|[e o] h IH]; intros s L T Ht HT TB I J; simpl.
  - unfold all_attempts; simpl. rewrite app_nil_r. eapply win_inv_time; eauto.
  - destruct (step e o s) as [s' a] eqn:St. unfold times_ok in Ht. simpl in Ht. inversion Ht as [|? ? Ht' F]; subst.
    destruct (HT e o) as [H1 H2]; [left|].
    destruct (win_run_inv tid (e_now e) _ _ _ (step_win _ _ _ _ _ St) L) as [I' J'].
    { eapply win_inv_time; [exact I|exact H1]. }
    { exact J. }
    unfold all_attempts. simpl. rewrite app_assoc. eapply IH; [exact Ht'| |exact H2|exact I'|exact J'].
    intros e' o' Hin. split.
    + rewrite Forall_forall in F. apply F. apply elem_of_list_fmap. exists (e', o'). auto.
    + apply HT with o'. right. exact Hin.
Qed.

Lemma idle_passes h now tid s0 :
  now_at h now s0 -> idle h now tid s0 -> snd (guard_w now tid (windows (run h s0))) = true.
Proof.
  intros ((caller & url_ok & a & Hi) & Ht & Hn) Hd.
  assert (I : win_inv tid (passes tid ([] ++ all_attempts (trace h s0))) now (windows (run h s0))).
  { apply (trace_win_inv tid now h s0 [] 0); auto; try lia.
    - intros e o H. rewrite Forall_forall in Hn. split; [lia|]. apply (Hn (e, o) H).
    - destruct (init_last_id _ _ _ _ Hi) as (_ & _ & _ & _ & _ & _ & W & _). unfold passes; simpl.
      split; [constructor|]. split; [intros t X; apply elem_of_nil in X; contradiction|]. split.
      + exists []. rewrite W, lookup_empty. simpl. split; [reflexivity|]. intros t X; apply elem_of_nil in X; contradiction.
      + intros k p q H. rewrite lookup_nil in H. discriminate.
    - intros l1 l2 x H. destruct l1; discriminate. }
  simpl in I. destruct (win_inv_attempt tid _ now tid _ I) as [_ R].
  destruct (snd (guard_w now tid (windows (run h s0)))) eqn:E; [reflexivity|].
  destruct (R eq_refl eq_refl) as (l1 & l2 & E1 & E2 & E3). unfold idle in Hd. rewrite E1, filter_app, app_length in Hd.
  rewrite (filter_all (fun t => now < t + 60000000) l2) in Hd; [lia|]. intros x Hx. apply E3. exact Hx.
Qed.

Lemma unlocked_guards h now s0 : now_at h now s0 -> unlocked h s0 -> guards (run h s0) = ∅.
Proof.
  intros ((caller & url_ok & a & Hi) & _ & _) [C P]. destruct (init_lock_inv _ _ _ _ Hi) as (L & G & P0).
  assert (F : free_inv (run h s0)) by (apply free_inv_trace; [exact C|split; auto]).
  apply F. exact P.
Qed.

Lemma calm_no_upgrade h s : Forall (fun x => snd x <> OUpgrade) h -> calm (trace h s).
Proof.
  intros F. revert s. induction F as [|[e o] h Ho F IH]; intros s; [constructor|]. simpl.
  destruct (step e o s) as [s1 an]. constructor; [simpl in *; contradiction|]. apply IH.
Qed.

Lemma now_at_wf h now s0 : now_at h now s0 -> wf (run h s0).
Proof. intros ((caller & url_ok & a & Hi) & _ & _). apply run_wf. eapply init_wf; eauto. Qed.

(** ** C83 *)

(** Limits and windows as they are configured or by default. *)
Definition memo_limit (s : state) : N := default 1000000 (c_max_memo (cfg s)).
(** See [memo_limit]. *)
Definition drift_of (s : state) : N := default 50000000 (c_drift (cfg s)).
(** See [memo_limit]. *)
Definition tx_window_of (s : state) : N := default 10000000000 (c_tx_window (cfg s)).

Lemma memo_ok s m :
  memo_limit s < two32 -> nlen (default [] m) <= memo_limit s -> check_memo s m = Some true.
Proof.
  unfold memo_limit, check_memo, usize_try. change 1000000 with default_max_memo. destruct m as [m|]; [|reflexivity]. intros H1 H2. simpl in H2.
  rewrite (proj2 (N.ltb_lt _ _) H1). f_equal. apply N.leb_le. exact H2.
Qed.

Lemma u64_setting_ok o d : default d o < two64 -> u64_setting o d = Some (default d o).
Proof. destruct o as [n|]; [|reflexivity]. simpl. intros H. unfold u64_try. rewrite (proj2 (N.ltb_lt _ _) H). reflexivity. Qed.

(** The owner of a token transfers it: a valid recipient, a memo within the limit, a creation time within the window, a limiter
    that has room and a log that takes the block are enough. *)
Theorem C83_transfer_succeeds h s0 e a ow :
  let s := run h s0 in
  let created := default (e_now e) (ta_created a) in
  now_at h (e_now e) s0 -> idle h (e_now e) (ta_tid a) s0 ->
  owner_of s (ta_tid a) = Some ow -> acc_owner ow = e_caller e -> e_caller e <> anonymous ->
  acc_owner (ta_to a) <> anonymous -> akey ow <> akey (ta_to a) ->
  1 <= default 100 (c_max_update (cfg s)) < two32 ->
  memo_limit s < two32 -> nlen (default [] (ta_memo a)) <= memo_limit s ->
  e_now e + drift_of s < two64 -> tx_window_of s + drift_of s < two64 ->
  created <= e_now e + drift_of s -> e_now e <= created + tx_window_of s + drift_of s ->
  (forall n, exists i, e_log e n (mkTx "7xfer" (e_now e) (Some (ta_tid a)) (Some ow) (Some (ta_to a)) None None None
                                       (ta_memo a) (Some created)) = LOk i) ->
  exists s' i, step e (OTransfer [a]) s = (s', ABatch [Ok i]) /\ owner_of s' (ta_tid a) = Some (ta_to a).
Proof. change 100 with default_max_update.
  intros s created Hn Hd Ho Hc Ha Hr Hs [U1 U2] M1 M2 F1 F2 C1 C2 Hl.
  pose proof (idle_passes _ _ _ _ Hn Hd) as P. fold s in P.
  pose proof (now_at_wf _ _ _ Hn) as W. fold s in W.
  rewrite owner_of_tokens in Ho. destruct (tokens s !! ta_tid a) as [nft|] eqn:T; [|discriminate]. injection Ho as Ho.
  pose proof (wf_id _ W _ _ T) as Hid.
  destruct (Hl (lcalls s)) as [i Hi].
  set (s1 := set_windows (fst (guard_w (e_now e) (ta_tid a) (windows s))) s).
  assert (X : transfer_nft e s a =
    Some (move_token nft (ta_to a) (set_log (log s ++ [(i, transfer_tx (e_now e) nft a created)])
                                     (set_lcalls (lcalls s + 1) s1)), Ok i)).
  { unfold transfer_nft. rewrite guard_w_eq, P. cbn [negb]. fold s1.
    change (tokens s1) with (tokens s). rewrite T.
    change (check_memo s1) with (check_memo s). rewrite (memo_ok s _ M1 M2).
    rewrite Ho. rewrite (bool_decide_eq_true_2 _ Hc), (bool_decide_eq_false_2 _ Hr), (proj2 (acc_eqb_false _ _) Hs).
    cbn [negb orb]. change (cfg s1) with (cfg s). unfold drift_of, tx_window_of in *.
    change 50000000 with default_drift in *. change 10000000000 with default_tx_window in *.
    rewrite !u64_setting_ok by lia. fold created.
    rewrite add64_exact by exact F1. rewrite add64_exact by exact F2. unfold sat_sub.
    assert ((e_now e + default default_drift (c_drift (cfg s)) <? created) = false) as -> by (apply N.ltb_ge; lia).
    assert ((created <? e_now e - (default default_tx_window (c_tx_window (cfg s)) + default default_drift (c_drift (cfg s)))) = false)
      as -> by (apply N.ltb_ge; lia).
    unfold add_transaction, transfer_tx. rewrite Ho. change (lcalls s1) with (lcalls s). rewrite Hi. reflexivity. }
  eexists _, i. split.
  - cbn [step]. unfold icrc7_transfer, usize_try. rewrite (proj2 (N.ltb_lt _ _) U2).
    assert ((default default_max_update (c_max_update (cfg s)) <? nlen [a]) = false) as ->.
    { apply N.ltb_ge. unfold nlen. simpl. lia. }
    rewrite andb_false_r, (bool_decide_eq_false_2 _ Ha). unfold take_n.
    replace (N.to_nat (N.min (default default_max_update (c_max_update (cfg s))) (nlen [a]))) with 1%nat
      by (unfold nlen; simpl length; lia).
    cbn [firstn run_items]. rewrite X. reflexivity.
  - rewrite owner_of_tokens, tokens_move, Hid, lookup_insert. reflexivity.
Qed.
Print Assumptions C83_transfer_succeeds.

(** The owner burns a token: nothing but a free management lock and a log that takes the block is needed. *)
Theorem C83_burn_succeeds h s0 e t ow :
  let s := run h s0 in
  now_at h (e_now e) s0 -> unlocked h s0 -> owner_of s t = Some ow -> acc_owner ow = e_caller e ->
  (forall n, exists i, e_log e n (mkTx "7burn" (e_now e) (Some t) (Some ow) None None None None None (Some (e_now e))) = LOk i) ->
  exists s', step e (OBurn t) s = (s', AOk) /\ owner_of s' t = None.
Proof.
  intros s Hn Hu Ho Hc Hl. pose proof (unlocked_guards _ _ _ Hn Hu) as G. fold s in G.
  rewrite owner_of_tokens in Ho. destruct (tokens s !! t) as [tok|] eqn:T; [|discriminate]. injection Ho as Ho.
  destruct (Hl (lcalls s)) as [i Hi]. eexists. split.
  - cbn [step]. unfold burn_nft. rewrite (with_lock_eq _ _ _ (commutes_burn e t)), decide_True by exact G.
    unfold burn_body. rewrite T, Ho. rewrite (bool_decide_eq_true_2 _ (eq_sym Hc)). cbn [negb].
    unfold add_transaction, burn_tx. rewrite Ho, Hi. reflexivity.
  - rewrite owner_of_tokens. simpl. rewrite lookup_delete. reflexivity.
Qed.
Print Assumptions C83_burn_succeeds.

Definition live_h : history := demo2_h ++ [(from_ bob 3000000000, OTransfer [xfer bob 1; xfer bob 1; xfer bob 1; xfer bob 1])].

Lemma live_now dt : 3000000000 <= dt -> now_at live_h (t0 + dt) demo0.
Proof.
  intros H. split; [exists admin, (fun _ => true), demo_args; apply demo0_init|]. split.
  - unfold times_ok. vm_compute map. repeat constructor; vm_compute; discriminate.
  - unfold live_h, demo2_h, demo1_h. repeat constructor; simpl; lia.
Qed.

(** After four fruitless attempts by bob within the same 60 ms, alice still transfers token 1; she also burns token 2. *)
Example C83_example :
  let e := from_ alice 3000000001 in let s := run live_h demo0 in
  now_at live_h (e_now e) demo0 /\ idle live_h (e_now e) 1 demo0 /\ owner_of s 1 = Some (acct alice) /\
  1 <= default 100 (c_max_update (cfg s)) < two32 /\ memo_limit s < two32 /\
  e_now e + drift_of s < two64 /\ tx_window_of s + drift_of s < two64 /\
  unlocked live_h demo0 /\ owner_of s 2 = Some (acct alice) /\
  snd (step e (OTransfer [xfer carol 1]) s) = ABatch [Ok 5] /\ snd (step e (OBurn 2) s) = AOk.
Proof.
  split; [apply live_now; discriminate|]. split; [unfold idle; vm_compute; lia|].
  assert (U : unlocked live_h demo0).
  { split; [apply calm_no_upgrade; repeat constructor; discriminate|apply map_empty_size; vm_compute; reflexivity]. }
  splits; try exact U; try (vm_compute; reflexivity). vm_compute. discriminate.
Qed.

(** ** C84 *)

(** Approvals: a creation time within the window (no overflow). *)
Definition created_ok (s : state) (created now : N) : Prop :=
  now + drift_of s < two64 /\ created + tx_window_of s < two64 /\
  created <= now + drift_of s /\ now <= created + tx_window_of s.

Lemma created_ok_timing s s1 created now : cfg s1 = cfg s -> created_ok s created now -> verify_approval_timing s1 created now = TimeOk.
Proof.
  intros E (H1 & H2 & H3 & H4). unfold drift_of, tx_window_of in *. apply approval_timing_complete; rewrite E; assumption.
Qed.

(** The number of approvals a token or an account may have. *)
Definition max_approvals (s : state) : N :=
  match c_max_appr (cfg s) with Some n => if n <? 2 ^ 32 then n else 10 | None => 10 end.

Lemma max_approvals_eq s : usize_limit (c_max_appr (cfg s)) = max_approvals s.
Proof.
  unfold usize_limit, max_approvals, usize_try, default_max_appr. change (2 ^ 32) with two32.
  destruct (c_max_appr (cfg s)) as [n|]; simpl; [destruct (n <? two32)|]; reflexivity.
Qed.

Theorem C84_approve_token_succeeds h s0 e a ow :
  let s := run h s0 in
  let i := ap_info a in
  let from := mkAcc (e_caller e) (ai_from_sub i) in
  now_at h (e_now e) s0 -> idle h (e_now e) (ap_tid a) s0 -> ap_tid a < 2 ^ 64 ->
  owner_of s (ap_tid a) = Some ow -> akey ow = akey from -> akey (ai_spender i) <> akey (mkAcc anonymous None) ->
  created_ok s (ai_created i) (e_now e) ->
  N.of_nat (length (approvals_on s (ap_tid a))) < max_approvals s ->
  (forall n, exists x, e_log e n (mkTx "37approve" (e_now e) (Some (ap_tid a)) (Some from) None (Some (ai_spender i))
                                   (ai_expires i) None (ai_memo i) (Some (ai_created i))) = LOk x) ->
  exists s' x, step e (OApproveTokens [a]) s = (s', ABatch [Ok x]) /\
    token_approval s' (ap_tid a) (ai_spender i) =
      Some (mkAppr (ai_spender i) from (ai_expires i) (e_now e) (ai_memo i)).
Proof.
  intros s i from Hn Hd Ht Ho Ha Hs Hc Hm Hl.
  pose proof (idle_passes _ _ _ _ Hn Hd) as P. fold s in P.
  destruct (Hl (lcalls s)) as [x Hx].
  assert (X : exists s', step e (OApproveTokens [a]) s = (s', ABatch [Ok x])).
  { cbn [step]. unfold icrc37_approve_tokens. cbn [run_items]. unfold approve_token. rewrite guard_w_eq, P. cbn [negb].
    fold i from. rewrite (created_ok_timing s) by (assumption || reflexivity).
    change (owner_of (set_windows _ s)) with (owner_of s). rewrite Ho.
    change anonymous_account with (mkAcc anonymous None).
    rewrite (proj2 (acc_eqb_true _ _) Ha), (proj2 (acc_eqb_false _ _) Hs). cbn [negb].
    change (cfg (set_windows _ s)) with (cfg s). change (tok_appr (set_windows _ s)) with (tok_appr s).
    rewrite max_approvals_eq.
    assert (match tok_appr s !! ap_tid a with Some m => max_approvals s <=? N.of_nat (size m) | None => false end = false) as ->.
    { unfold approvals_on in Hm. destruct (tok_appr s !! ap_tid a) as [m|]; [|reflexivity]. apply N.leb_gt.
      simpl in Hm. rewrite map_length in Hm. exact Hm. }
    unfold add_transaction, approve_tx. change (lcalls (set_windows _ s)) with (lcalls s). rewrite Hx.
    assert ((ap_tid a <? two64) = true) as -> by (apply N.ltb_lt; exact Ht). eexists. reflexivity. }
  destruct X as [s' X]. exists s', x. split; [exact X|].
  destruct (approve_ok_effect _ _ _ _ _ X) as (_ & _ & _ & E). rewrite E, decide_True by auto. reflexivity.
Qed.
Print Assumptions C84_approve_token_succeeds.

Lemma has_nfts_owner s t ow p : owner_of s t = Some ow -> acc_owner ow = p -> has_nfts s p = true.
Proof.
  rewrite owner_of_tokens. destruct (tokens s !! t) as [k|] eqn:T; [|discriminate]. intros [= <-] E.
  unfold has_nfts. apply existsb_exists. exists (t, k). split; [apply elem_of_list_In, elem_of_map_to_list; exact T|].
  apply bool_decide_eq_true_2. exact E.
Qed.

(** Whoever owns a token, under any subaccount, can give a collection approval. *)
Theorem C84_approve_collection_succeeds h s0 e i t ow :
  let s := run h s0 in
  let from := mkAcc (e_caller e) (ai_from_sub i) in
  now_at h (e_now e) s0 -> idle h (e_now e) 0 s0 ->
  owner_of s t = Some ow -> acc_owner ow = e_caller e -> akey (ai_spender i) <> akey (mkAcc anonymous None) ->
  created_ok s (ai_created i) (e_now e) ->
  N.of_nat (length (approvals_of s from)) < max_approvals s ->
  (forall n, exists x, e_log e n (mkTx "37approve_coll" (e_now e) None (Some from) None (Some (ai_spender i))
                                   (ai_expires i) None (ai_memo i) (Some (ai_created i))) = LOk x) ->
  exists s' x, step e (OApproveCollection [i]) s = (s', ABatch [Ok x]) /\
    collection_approval s' from (ai_spender i) =
      Some (mkAppr (ai_spender i) from (ai_expires i) (e_now e) (ai_memo i)).
Proof.
  intros s from Hn Hd Ho Ha Hs Hc Hm Hl.
  pose proof (idle_passes _ _ _ _ Hn Hd) as P. fold s in P.
  destruct (Hl (lcalls s)) as [x Hx]. do 2 eexists.
  cbn [step]. unfold icrc37_approve_collection. cbn [run_items]. unfold approve_collection. rewrite guard_w_eq, P. cbn [negb].
  fold from. rewrite (created_ok_timing s) by (assumption || reflexivity).
  change anonymous_account with (mkAcc anonymous None). rewrite (proj2 (acc_eqb_false _ _) Hs).
  change (has_nfts (set_windows _ s)) with (has_nfts s). rewrite (has_nfts_owner _ _ _ _ Ho Ha). cbn [negb].
  change (cfg (set_windows _ s)) with (cfg s). change (col_appr (set_windows _ s)) with (col_appr s).
  rewrite max_approvals_eq.
  assert (match col_appr s !! akey from with Some m => max_approvals s <=? N.of_nat (size m) | None => false end = false) as ->.
  { unfold approvals_of in Hm. destruct (col_appr s !! akey from) as [m|]; [|reflexivity]. apply N.leb_gt.
    simpl in Hm. rewrite map_length in Hm. exact Hm. }
  unfold add_transaction, approve_tx. change (lcalls (set_windows _ s)) with (lcalls s). rewrite Hx.
  split; [reflexivity|]. unfold collection_approval. simpl. rewrite lookup_insert, appmap_insert_lookup, decide_True by reflexivity.
  reflexivity.
Qed.
Print Assumptions C84_approve_collection_succeeds.

(** The owner withdraws approvals of a token that ever had one. *)
Theorem C84_revoke_token_succeeds h s0 e a ow m :
  let s := run h s0 in
  let from := mkAcc (e_caller e) (rv_from_sub a) in
  now_at h (e_now e) s0 -> idle h (e_now e) (rv_tid a) s0 -> 1 <= max_revocations s ->
  owner_of s (rv_tid a) = Some ow -> akey ow = akey from -> tok_appr s !! rv_tid a = Some m ->
  (forall c, rv_created a = Some c -> created_ok s c (e_now e)) ->
  (forall n, exists x, e_log e n (mkTx "37revoke" (e_now e) (Some (rv_tid a)) (Some from) None (rv_spender a)
                                   None None (rv_memo a) (rv_created a)) = LOk x) ->
  exists s' x, step e (ORevokeTokens [a]) s = (s', ABatch [Ok x]) /\
    forall sp, concerns (rv_spender a) sp -> token_approval s' (rv_tid a) sp = None.
Proof.
  intros s from Hn Hd Hr Ho Ha Hm Hc Hl.
  pose proof (idle_passes _ _ _ _ Hn Hd) as P. fold s in P.
  destruct (Hl (lcalls s)) as [x Hx].
  assert (X : exists s', step e (ORevokeTokens [a]) s = (s', ABatch [Ok x])).
  { cbn [step]. unfold icrc37_revoke_token_approvals. rewrite guard_w_eq, P. cbn [negb].
    change (cfg (set_windows _ s)) with (cfg s). rewrite max_revocations_eq.
    rewrite take_n_at_most by (unfold nlen; simpl; lia). cbn [run_items]. unfold revoke_token_approvals. fold from.
    assert (verify_opt_timing (set_windows (fst (guard_w (e_now e) (rv_tid a) (windows s))) s) (rv_created a) (e_now e) = TimeOk) as ->.
    { destruct (rv_created a) as [c|]; [|reflexivity]. simpl. apply (created_ok_timing s); [reflexivity|]. apply Hc. reflexivity. }
    change (owner_of (set_windows _ s)) with (owner_of s). rewrite Ho, (proj2 (acc_eqb_true _ _) Ha). cbn [negb].
    change (tok_appr (set_windows _ s)) with (tok_appr s). rewrite Hm.
    unfold add_transaction, revoke_tx. change (lcalls (set_windows _ s)) with (lcalls s). rewrite Hx. eexists. reflexivity. }
  destruct X as [s' X]. exists s', x. split; [exact X|]. intros sp Hsp.
  destruct (revoke_ok_effect _ _ _ _ _ X) as [E _]. rewrite E, decide_True by auto. reflexivity.
Qed.
Print Assumptions C84_revoke_token_succeeds.

(** A principal withdraws the collection approvals of its default account, if that ever gave one. *)
Theorem C84_revoke_collection_succeeds h s0 e a m :
  let s := run h s0 in
  let from := mkAcc (e_caller e) None in
  now_at h (e_now e) s0 -> idle h (e_now e) 0 s0 -> 1 <= max_revocations s ->
  col_appr s !! akey from = Some m ->
  (forall c, rc_created a = Some c -> created_ok s c (e_now e)) ->
  (forall n, exists x, e_log e n (mkTx "37revoke_coll" (e_now e) None (Some from) None (rc_spender a)
                                   None None (rc_memo a) (rc_created a)) = LOk x) ->
  exists s' x, step e (ORevokeCollection [a]) s = (s', ABatch [Ok x]) /\
    forall sp, concerns (rc_spender a) sp -> collection_approval s' from sp = None.
Proof.
  intros s from Hn Hd Hr Hm Hc Hl.
  pose proof (idle_passes _ _ _ _ Hn Hd) as P. fold s in P.
  destruct (Hl (lcalls s)) as [x Hx].
  assert (X : exists s', step e (ORevokeCollection [a]) s = (s', ABatch [Ok x])).
  { cbn [step]. unfold icrc37_revoke_collection_approvals. rewrite max_revocations_eq.
    rewrite take_n_at_most by (unfold nlen; simpl; lia). cbn [run_items]. unfold revoke_collection_approvals.
    rewrite guard_w_eq, P. cbn [negb]. fold from.
    assert (verify_opt_timing (set_windows (fst (guard_w (e_now e) 0 (windows s))) s) (rc_created a) (e_now e) = TimeOk) as ->.
    { destruct (rc_created a) as [c|]; [|reflexivity]. simpl. apply (created_ok_timing s); [reflexivity|]. apply Hc. reflexivity. }
    change (col_appr (set_windows _ s)) with (col_appr s). rewrite Hm.
    unfold add_transaction, revoke_tx. change (lcalls (set_windows _ s)) with (lcalls s). rewrite Hx. eexists. reflexivity. }
  destruct X as [s' X]. exists s', x. split; [exact X|]. intros sp Hsp.
  destruct (revoke_coll_ok_effect _ _ _ _ _ X) as [E _]. rewrite E, decide_True by auto. reflexivity.
Qed.
Print Assumptions C84_revoke_collection_succeeds.

(** Whoever may move a token moves it with [icrc37_transfer_from]. *)
Theorem C84_transfer_from_succeeds h s0 e a ow :
  let s := run h s0 in
  let spender := mkAcc (e_caller e) (tf_spender_sub a) in
  now_at h (e_now e) s0 -> idle h (e_now e) (tf_tid a) s0 ->
  owner_of s (tf_tid a) = Some ow -> akey ow = akey (tf_from a) -> may_move s (tf_tid a) ow spender (e_now e) ->
  akey (tf_from a) <> akey (tf_to a) -> akey (tf_to a) <> akey (mkAcc anonymous None) ->
  (forall c, tf_created a = Some c -> created_ok s c (e_now e)) ->
  (forall n, exists x, e_log e n (mkTx "37xfer" (e_now e) (Some (tf_tid a)) (Some (tf_from a)) (Some (tf_to a)) (Some spender)
                                   None None (tf_memo a) (tf_created a)) = LOk x) ->
  exists s' x, step e (OTransferFrom [a]) s = (s', ABatch [Ok x]) /\ owner_of s' (tf_tid a) = Some (tf_to a).
Proof.
  intros s spender Hn Hd Ho Ha Hm Hs Hr Hc Hl.
  pose proof (idle_passes _ _ _ _ Hn Hd) as P. fold s in P.
  pose proof (now_at_wf _ _ _ Hn) as W. fold s in W.
  destruct (Hl (lcalls s)) as [x Hx]. pose proof Ho as Ho'.
  rewrite owner_of_tokens in Ho. destruct (tokens s !! tf_tid a) as [nft|] eqn:T; [|discriminate]. injection Ho as Ho.
  assert (X : exists s', step e (OTransferFrom [a]) s = (s', ABatch [Ok x])).
  { cbn [step]. unfold icrc37_transfer_from. cbn [run_items]. unfold transfer_from. rewrite guard_w_eq, P. cbn [negb].
    set (s1 := set_windows _ s).
    assert (verify_opt_timing s1 (tf_created a) (e_now e) = TimeOk) as ->.
    { destruct (tf_created a) as [c|]; [|reflexivity]. simpl. apply (created_ok_timing s); [reflexivity|]. apply Hc. reflexivity. }
    change (tokens s1) with (tokens s). rewrite T.
    change anonymous_account with (mkAcc anonymous None).
    rewrite (proj2 (acc_eqb_false _ _) Hs), (proj2 (acc_eqb_false _ _) Hr). fold spender.
    rewrite check_token_approval_eq, check_collection_approval_eq. cbn [set_tok_appr tok_appr col_appr].
    rewrite Ho, (proj2 (acc_eqb_true _ _) Ha). cbn [negb orb].
    change (tok_appr s1) with (tok_appr s). change (col_appr s1) with (col_appr s).
    match goal with |- context [if ?b then _ else _] => assert (b = false) as -> end.
    { destruct Hm as [Hm|[Hm|Hm]].
      - rewrite (proj2 (acc_eqb_true spender (tf_from a))) by congruence. reflexivity.
      - unfold token_approved in Hm. rewrite (proj2 (has_valid_iff _ _ _) Hm). apply andb_false_intro1, andb_false_r.
      - unfold collection_approved in Hm. rewrite (proj2 (has_valid_iff _ _ _) Hm). apply andb_false_r. }
    unfold add_transaction, transfer_from_tx. cbn [lcalls set_col_appr set_tok_appr]. change (lcalls s1) with (lcalls s).
    rewrite Hx. eexists. reflexivity. }
  destruct X as [s' X]. exists s', x. split; [exact X|].
  destruct (transfer_from_ok_effect _ _ _ _ _ W X) as (_ & _ & _ & E & _).
  rewrite owner_of_tokens. change (t_owner <$> tokens s' !! tf_tid a) with (t_owner <$> (tokens s' !! tf_tid a)).
  rewrite <- lookup_fmap. fold (owners s'). rewrite E. apply lookup_insert.
Qed.
Print Assumptions C84_transfer_from_succeeds.

(** alice approves carol on token 1, approves bob for her collection, revokes bob and carol; carol moves token 2. *)
Example C84_example :
  let e := from_ alice 3000000001 in let s := run live_h demo0 in
  now_at live_h (e_now e) demo0 /\ idle live_h (e_now e) 1 demo0 /\ idle live_h (e_now e) 0 demo0 /\ idle live_h (e_now e) 2 demo0 /\
  owner_of s 1 = Some (acct alice) /\ created_ok s (t0 + 3000000000) (e_now e) /\
  N.of_nat (length (approvals_on s 1)) < max_approvals s /\ N.of_nat (length (approvals_of s (acct alice))) < max_approvals s /\
  1 <= max_revocations s /\ is_Some (tok_appr s !! 1) /\ is_Some (col_appr s !! akey (acct alice)) /\
  may_move s 2 (acct alice) (acct carol) (e_now e) /\
  snd (step e (OApproveTokens [appr 1 carol 3000000000 None]) s) = ABatch [Ok 5] /\
  snd (step e (OApproveCollection [info bob 3000000000 None]) s) = ABatch [Ok 5] /\
  snd (step e (ORevokeTokens [mkRevokeArg (Some (acct bob)) None 1 None None]) s) = ABatch [Ok 5] /\
  snd (step e (ORevokeCollection [mkRevokeCollArg None None None None]) s) = ABatch [Ok 5] /\
  snd (step (from_ carol 3000000001) (OTransferFrom [tfrom alice bob 2]) s) = ABatch [Ok 5].
Proof.
  split; [apply live_now; discriminate|]. do 3 (split; [unfold idle; vm_compute; lia|]).
  split; [vm_compute; reflexivity|]. split; [unfold created_ok; vm_compute; repeat split; discriminate|].
  splits; try (vm_compute; reflexivity).
  - vm_compute. discriminate.
  - destruct (tok_appr (run live_h demo0) !! 1) eqn:E; [eauto|]. exfalso.
    assert (X : bool_decide (is_Some (tok_appr (run live_h demo0) !! 1)) = true) by (vm_compute; reflexivity).
    rewrite E in X. vm_compute in X. discriminate.
  - destruct (col_appr (run live_h demo0) !! akey (acct alice)) eqn:E; [eauto|]. exfalso.
    assert (X : bool_decide (is_Some (col_appr (run live_h demo0) !! akey (acct alice))) = true) by (vm_compute; reflexivity).
    rewrite E in X. vm_compute in X. discriminate.
  - right; right. apply has_valid_iff. vm_compute. reflexivity.
Qed.

(** ** C85 *)

Lemma mint_metadata_some l : forall id m,
  id + nlen l <= two64 -> (forall r kv, r ∈ l -> kv ∈ mr_meta r -> encodable (snd kv) = true) ->
  is_Some (mint_metadata id l m).
Proof.
  induction l as [|r l IH]; intros id m H E; simpl; [eauto|]. unfold nlen in *. simpl length in H.
  destruct (add_metadata id (mr_meta r) m) as [m'|] eqn:A.
  - apply IH; [lia|]. intros r' kv Hr. apply E. right. exact Hr.
  - exfalso. assert (X : is_Some (add_metadata id (mr_meta r) m)); [|rewrite A in X; destruct X; discriminate].
    apply add_metadata_iff. right. split; [unfold two64 in H; lia|]. intros kv. apply E. left.
Qed.

Lemma mint_log_ok e l : forall id s,
  (forall n k r, l !! k = Some r -> exists i, e_log e n (mint_tx (e_now e) (id + N.of_nat k) r) = LOk i) ->
  snd (mint_log e id l s) = None.
Proof.
  induction l as [|r l IH]; intros id s H; simpl; [reflexivity|]. unfold add_transaction.
  destruct (H (lcalls s) 0%nat r eq_refl) as [i Hi]. rewrite N.add_0_r in Hi. rewrite Hi. apply IH.
  intros n k r' Hr. destruct (H n (S k) r' Hr) as [j Hj]. exists j. rewrite <- Hj. do 2 f_equal. lia.
Qed.

(** A minter mints: room in the batch and under the cap, memos within the limit, encodable metadata, 64-bit ids. *)
Theorem C85_mint_succeeds h s0 e l :
  let s := run h s0 in
  now_at h (e_now e) s0 -> unlocked h s0 -> holds s (e_caller e) PMinting ->
  nlen l <= default 100 (c_max_update (cfg s)) ->
  N.of_nat (size (tokens s)) + nlen l <= default 10000 (c_supply_cap (cfg s)) ->
  memo_limit s < two32 -> (forall r, r ∈ l -> nlen (default [] (mr_memo r)) <= memo_limit s) ->
  last_id s + nlen l <= 2 ^ 64 -> (forall r kv, r ∈ l -> kv ∈ mr_meta r -> encodable (snd kv) = true) ->
  (forall n k r, l !! k = Some r -> exists i,
     e_log e n (mkTx "7mint" (e_now e) (Some (last_id s + N.of_nat k)) None (Some (mr_owner r)) None None None (mr_memo r) (Some (e_now e))) = LOk i) ->
  exists s', step e (OMint l) s = (s', ANat (last_id s)) /\
    forall k r, l !! k = Some r -> owner_of s' (last_id s + N.of_nat k) = Some (mr_owner r).
Proof. change 100 with default_max_update. change 10000 with default_supply_cap.
  intros s Hn Hu Hp Hb Hcap Hm1 Hm2 Hid He Hl. pose proof (unlocked_guards _ _ _ Hn Hu) as G. fold s in G.
  assert (X : exists s', mint_body e l s = Some (s', MOk (last_id s))).
  { unfold mint_body. rewrite (proj2 (N.ltb_ge _ _) Hb), (proj2 (N.ltb_ge _ _) Hcap).
    assert (check_memos s l = Some true) as ->.
    { clear -Hm1 Hm2. induction l as [|r l IH]; simpl; [reflexivity|]. rewrite memo_ok; auto.
      - apply IH. intros r' Hr. apply Hm2. right. exact Hr.
      - apply Hm2. left. }
    destruct (mint_metadata_some l (last_id s) (metas s)) as [m ->]; [exact Hid|exact He|].
    pose proof (mint_log_ok e l (last_id s) (set_metas m s) Hl) as L.
    destruct (mint_log e (last_id s) l (set_metas m s)) as [s2 o]. simpl in L. subst o. eexists. reflexivity. }
  destruct X as [s' X]. exists s'. split.
  - cbn [step]. unfold mint, with_permission. rewrite (proj2 (holds_iff _ _ _) Hp).
    rewrite (with_lock_eq _ _ _ (commutes_mint e l)), decide_True by exact G. rewrite X. reflexivity.
  - intros k r Hk. destruct (mint_body_inv _ _ _ _ _ X) as
      [(_ & er & Y & _)|(_ & _ & _ & m & idxs & n & _ & [(msg & Y & _)|(_ & _ & ->)])]; [discriminate|discriminate|].
    rewrite owner_of_tokens. simpl. rewrite mint_tokens_lookup.
    pose proof (lookup_lt_Some _ _ _ Hk). unfold nlen.
    rewrite decide_True by lia. replace (N.to_nat (last_id s + N.of_nat k - last_id s)) with k by lia. rewrite Hk. reflexivity.
Qed.
Print Assumptions C85_mint_succeeds.

(** A holder of the permission replaces the metadata of a token. *)
Theorem C85_update_metadata_succeeds h s0 e t kvs ow :
  let s := run h s0 in
  now_at h (e_now e) s0 -> unlocked h s0 -> holds s (e_caller e) PUpdateMetadata -> owner_of s t = Some ow ->
  t < 2 ^ 64 -> (forall kv, kv ∈ kvs -> encodable (snd kv) = true) ->
  (forall n x, exists i, e_log e n x = LOk i) ->
  exists s', step e (OUpdateMeta t kvs) s = (s', ANat t) /\ forall k, meta_of s' t k = last_value kvs k.
Proof.
  intros s Hn Hu Hp Ho Ht He Hl. pose proof (unlocked_guards _ _ _ Hn Hu) as G. fold s in G.
  pose proof (now_at_wf _ _ _ Hn) as W. fold s in W.
  rewrite owner_of_tokens in Ho. destruct (tokens s !! t) as [nft|] eqn:T; [|discriminate].
  pose proof (wf_id _ W _ _ T) as Hid.
  assert (R : is_Some (replace_metadata (t_id nft) kvs (metas s))).
  { unfold replace_metadata. apply add_metadata_iff. right. rewrite Hid. split; [exact Ht|]. intros [k v] Hkv. simpl.
    destruct (sorted_pairs_lists (collect_map kvs)) as [ND L]. apply L in Hkv. rewrite collect_map_spec in Hkv.
    apply (He (k, v)). clear -Hkv. revert Hkv. induction kvs as [|[k1 v1] r IH]; simpl; [discriminate|].
    destruct (last_value r k) eqn:E.
    - intros [= ->]. right. apply IH. reflexivity.
    - destruct (bool_decide (k1 = k)) eqn:B; [|discriminate]. apply bool_decide_eq_true in B. intros [= ->]. subst. left. }
  destruct R as [m R].
  destruct (Hl (lcalls s) (update_meta_tx e t (meta_value t (metas s)) (meta_value t m))) as [i Hi].
  eexists. split.
  - cbn [step]. unfold update_nft_metadata, with_permission. rewrite (proj2 (holds_iff _ _ _) Hp).
    rewrite (with_lock_eq _ _ _ (commutes_update e t kvs)), decide_True by exact G.
    unfold update_nft_metadata_body. rewrite T, R. unfold add_transaction.
    change (metas (set_metas m s)) with m. change (lcalls (set_metas m s)) with (lcalls s). rewrite Hi. reflexivity.
  - intros k. unfold meta_of. simpl. rewrite Hid in R. apply (replace_metadata_spec _ _ _ _ R).
Qed.
Print Assumptions C85_update_metadata_succeeds.

(** Managers grant and revoke, and collection settings are changed, whenever the lock is free. *)
Theorem C85_settings_succeed h s0 e :
  let s := run h s0 in
  now_at h (e_now e) s0 -> unlocked h s0 ->
  (holds s (e_caller e) PManageAuthorities -> forall p q,
     (exists s', step e (OGrant p q) s = (s', AOk) /\ holds s' p q) /\
     (exists s', step e (ORevokePerm p q) s = (s', AOk) /\ ~ holds s' p q)) /\
  (holds s (e_caller e) PUpdateCollectionMetadata -> forall u, exists s', step e (OUpdateCollection u) s = (s', AOk)).
Proof.
  intros s Hn Hu. pose proof (unlocked_guards _ _ _ Hn Hu) as G. fold s in G. split.
  - intros Hp p q. apply holds_iff in Hp. split.
    + eexists. cbn [step]. unfold grant_permission, with_permission. rewrite Hp.
      rewrite (with_lock_eq _ _ _ (commutes_perm _)), decide_True by exact G. split; [reflexivity|].
      apply holds_grant. auto.
    + eexists. cbn [step]. unfold revoke_permission, with_permission. rewrite Hp.
      rewrite (with_lock_eq _ _ _ (commutes_perm _)), decide_True by exact G. split; [reflexivity|].
      intros X. apply holds_revoke in X. tauto.
  - intros Hp u. apply holds_iff in Hp. eexists. cbn [step]. unfold update_collection_metadata, with_permission. rewrite Hp.
    rewrite (with_lock_eq _ _ _ (commutes_cfg u)), decide_True by exact G. reflexivity.
Qed.
Print Assumptions C85_settings_succeed.

(** The installer mints two tokens with metadata, replaces metadata of token 1 and grants minting. *)
Example C85_example :
  let e := from_ admin 3000000001 in let s := run live_h demo0 in
  now_at live_h (e_now e) demo0 /\ unlocked live_h demo0 /\
  Forall (holds s admin) [PMinting; PUpdateMetadata; PManageAuthorities; PUpdateCollectionMetadata] /\
  N.of_nat (size (tokens s)) = 3 /\ memo_limit s < two32 /\
  snd (step e (OMint [mkMint (acct carol) (Some [1; 2]) [("a"%string, VNat 1)]; mkMint (acct bob) None []]) s) = ANat 4 /\
  snd (step e (OUpdateMeta 1 [("a"%string, VText "x"); ("a"%string, VText "y")]) s) = ANat 1 /\
  snd (step e (OGrant carol PMinting) s) = AOk /\ snd (step e (ORevokePerm admin PMinting) s) = AOk.
Proof.
  split; [apply live_now; discriminate|]. split.
  { split; [apply calm_no_upgrade; repeat constructor; discriminate|apply map_empty_size; vm_compute; reflexivity]. }
  split; [repeat constructor; apply holds_iff; vm_compute; reflexivity|].
  splits; vm_compute; reflexivity.
Qed.

(** ** C86 *)

(** Refuted: one call of bob, who does not own the token and of whose items each is refused, keeps alice from moving her token. *)
Theorem C86_no_hindrance_refuted :
  exists h s0 e a, now_at h (e_now e) s0 /\ (exists ow, owner_of (run h s0) (ta_tid a) = Some ow /\ acc_owner ow = e_caller e) /\
    (forall e' o, (e', o) ∈ h -> mentions (ta_tid a) o -> e_caller e' <> e_caller e) /\
    (exists e', h = demo1_h ++ [(e', OTransfer (repeat (xfer bob 1) 5))] /\ e_caller e' = bob /\
       snd (step e' (OTransfer (repeat (xfer bob 1) 5)) (run demo1_h s0)) = ABatch (repeat (Err EInvalidRecipient) 5)) /\
    snd (step e (OTransfer [a]) (run demo1_h s0)) = ABatch [Ok 3] /\
    snd (step e (OTransfer [a]) (run h s0)) = ABatch [Err (EGeneric 0 "Rate limit exceeded. You can make another call in 59999990 milliseconds")].
Proof.
  exists (demo1_h ++ [(from_ bob 10, OTransfer (repeat (xfer bob 1) 5))]), demo0, (from_ alice 20), (xfer carol 1).
  split.
  { split; [exists admin, (fun _ => true), demo_args; apply demo0_init|]. split.
    - unfold times_ok. vm_compute map. repeat constructor; vm_compute; discriminate.
    - unfold demo1_h. repeat constructor; simpl; lia. }
  split; [exists (acct alice); split; vm_compute; reflexivity|]. split.
  { intros e' o H M. apply elem_of_app in H. destruct H as [H|H]; apply elem_of_list_singleton in H; injection H as -> ->.
    - destruct M.
    - discriminate. }
  split; [exists (from_ bob 10); splits; vm_compute; reflexivity|]. split; vm_compute; reflexivity.
Qed.
Print Assumptions C86_no_hindrance_refuted.

Lemma attempts_mention ev tid b : tid <> 0 -> (tid, b) ∈ attempts ev -> mentions tid (ev_op ev).
Proof.
  intros Ht. unfold attempts.
  assert (Z : forall A (f : A -> N) (l : list A) rs (g : A * res N -> bool),
            (tid, b) ∈ map (fun x => (f (fst x), g x)) (zip l rs) -> exists a, a ∈ l /\ f a = tid).
  { intros A f l rs g H. apply elem_of_list_fmap in H. destruct H as ([a r] & E & H). injection E as -> _. exists a.
    split; [|reflexivity]. apply elem_of_zip_l in H. exact H. }
  assert (Nil : forall (G : Prop), (tid, b) ∈ ([] : list (N * bool)) -> G) by (intros G H; apply elem_of_nil in H; contradiction).
  destruct (ev_op ev) as [l|l|l|l|l|l| | | | | | | | | | | |]; try exact (Nil _).
  - destruct (ev_ans ev); try exact (Nil _).
    intros H. apply elem_of_list_fmap in H. destruct H as ([a r] & E & H). injection E as -> _.
    apply elem_of_list_filter in H. exists a. split; [|reflexivity]. apply (elem_of_zip_l _ _ _ _ (proj2 H)).
  - destruct (ev_ans ev); try exact (Nil _). apply Z.
  - destruct (ev_ans ev); try exact (Nil _).
    intros H. apply elem_of_list_fmap in H. destruct H as ([a r] & E & H). congruence.
  - destruct l as [|a l]; [exact (Nil _)|]. destruct (ev_ans ev); try exact (Nil _); intros H; apply elem_of_list_singleton in H;
      exists a; (split; [left|congruence]).
  - destruct (ev_ans ev); try exact (Nil _).
    intros H. apply elem_of_list_fmap in H. destruct H as ([a r] & E & H). congruence.
  - destruct (ev_ans ev); try exact (Nil _). apply Z.
Qed.

Lemma filter_none {A} (P : A -> Prop) `{!forall x, Decision (P x)} (l : list A) :
  (forall x, x ∈ l -> ~ P x) -> filter P l = [].
Proof.
  induction l as [|x l IH]; intros Hn; [reflexivity|]. rewrite filter_cons_False by (apply Hn; left).
  apply IH. intros y Hy. apply Hn. right. exact Hy.
Qed.

Lemma trace_in h s ev : ev ∈ trace h s -> (ev_env ev, ev_op ev) ∈ h.
Proof.
  intros H. apply trace_step in H. destruct H as (_ & h1 & h2 & -> & _). apply elem_of_app. right. left.
Qed.

(** Calls about other tokens never get in the way, nor do calls from 60 ms on after they were made.  Missing: younger calls. *)
Theorem C86_no_hindrance_partial h now tid s0 :
  tid <> 0 -> now_at h now s0 ->
  (forall e o, (e, o) ∈ h -> mentions tid o -> e_now e + 60000000 <= now) ->
  idle h now tid s0.
Proof.
  intros Ht _ H. unfold idle. rewrite (filter_none (fun t => now < t + 60000000)); [simpl; lia|].
  intros t Hin. unfold passes in Hin. apply elem_of_list_fmap in Hin. destruct Hin as ([[t' i] b] & -> & Hin).
  apply elem_of_list_filter in Hin. destruct Hin as [[Ei Eb] Hin]. simpl in Ei, Eb. subst i b.
  unfold all_attempts in Hin. apply elem_of_list_In, in_concat in Hin. destruct Hin as (x & Hin & Hx).
  apply elem_of_list_In in Hin, Hx. apply elem_of_list_fmap in Hin. destruct Hin as (ev & -> & Hev). apply elem_of_list_fmap in Hx.
  destruct Hx as ([i b] & E & Ha). injection E as -> <- <-. simpl.
  specialize (H _ _ (trace_in _ _ _ Hev) (attempts_mention _ _ _ Ht Ha)). lia.
Qed.
Print Assumptions C86_no_hindrance_partial.

(** 60 ms after bob's five attempts alice's transfer goes through. *)
Example C86_example :
  let h := demo1_h ++ [(from_ bob 10, OTransfer (repeat (xfer bob 1) 5))] in
  now_at h (t0 + 60000010) demo0 /\
  (forall e o, (e, o) ∈ h -> mentions 1 o -> e_now e + 60000000 <= t0 + 60000010) /\
  snd (step (from_ alice 60000010) (OTransfer [xfer carol 1]) (run h demo0)) = ABatch [Ok 3] /\
  snd (step (from_ alice 60000009) (OTransfer [xfer carol 1]) (run h demo0)) = ABatch [Err (EGeneric 0 "Rate limit exceeded. You can make another call in 1 milliseconds")].
Proof.
  intros h. split.
  { split; [exists admin, (fun _ => true), demo_args; apply demo0_init|]. split.
    - unfold times_ok. vm_compute map. repeat constructor; vm_compute; discriminate.
    - unfold h, demo1_h. repeat constructor; simpl; lia. }
  split.
  { intros e o H M. unfold h in H. apply elem_of_app in H. destruct H as [H|H]; apply elem_of_list_singleton in H; injection H as -> ->.
    - destruct M.
    - vm_compute. discriminate. }
  split; vm_compute; reflexivity.
Qed.
