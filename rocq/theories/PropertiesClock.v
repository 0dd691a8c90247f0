(** C152: only lengths of time count: the program knows no date. *)
From Verif Require Import Base ModelPrincipal ModelState ModelIcrc7 ModelIcrc37 ModelManagement ModelLifecycle
  ModelQueries ModelStep ProofsItems ProofsCore ProofsManage ProofsOwner Spec Scenario.
From Verif Require PropertiesRename.

(** ** A later clock *)

(** Everything that is a time is [d] later: creation and expiry of approvals, the times in blocks, the history of the rate
    limiter, the start of uploads, the times that callers give, and the ledger time in answers. *)
Definition late_appr (d : N) (x : approval) : approval :=
  mkAppr (a_spender x) (a_from x) (option_map (fun t => t + d) (a_expires x)) (a_created x + d) (a_memo x).
Definition late_entry (d : N) (x : account * approval) : account * approval := (fst x, late_appr d (snd x)).
Definition late_apps (d : N) (m : appmap) : appmap := late_entry d <$> m.
Definition late_tx (d : N) (t : tx) : tx :=
  mkTx (tx_btype t) (tx_time t + d) (tx_tid t) (tx_from t) (tx_to t) (tx_spender t) (option_map (fun t => t + d) (tx_exp t))
    (tx_meta t) (tx_memo t) (option_map (fun t => t + d) (tx_created t)).
Definition late_up (d : N) (u : upload) : upload := mkUp (u_init u + d) (u_state u) (u_canister u) (u_path u).
Definition late_pending (d : N) (p : pending) : pending :=
  match p with
  | PInit c path l => PInit c path l
  | PStore c k i x path => PStore c k (i + d) x path
  | PFinalize c k i x path => PFinalize c k (i + d) x path
  | PCancel c k => PCancel c k
  end.
Definition late (d : N) (s : state) : state :=
  mkSt (cfg s) (perms s) (tokens s) (by_owner s) (last_id s) (redirs s) (subs s)
    (late_apps d <$> tok_appr s) (late_apps d <$> col_appr s) (metas s) (map (fun t => t + d) <$> windows s) (guards s)
    (late_up d <$> files s) (map (fun x => (fst x, late_tx d (snd x))) (log s)) (lcalls s) (late_pending d <$> pend s) (next_pend s).

Definition late_info (d : N) (i : approval_info) : approval_info :=
  mkInfo (ai_spender i) (ai_from_sub i) (option_map (fun t => t + d) (ai_expires i)) (ai_memo i) (ai_created i + d).
Definition late_err (d : N) (e : err) : err := match e with ECreatedInFuture t => ECreatedInFuture (t + d) | _ => e end.
Definition late_reply (d : N) (r : reply) : reply :=
  match r with RInitErr c e => RInitErr c (late_err d e) | RErr e => RErr (late_err d e) | _ => r end.
Definition late_transfer (d : N) (a : transfer_arg) : transfer_arg :=
  mkTransferArg (ta_to a) (ta_tid a) (ta_memo a) (ta_from_sub a) (option_map (fun t => t + d) (ta_created a)).
Definition late_revoke (d : N) (a : revoke_arg) : revoke_arg :=
  mkRevokeArg (rv_spender a) (rv_from_sub a) (rv_tid a) (rv_memo a) (option_map (fun t => t + d) (rv_created a)).
Definition late_revoke_coll (d : N) (a : revoke_coll_arg) : revoke_coll_arg :=
  mkRevokeCollArg (rc_spender a) (rc_from_sub a) (rc_memo a) (option_map (fun t => t + d) (rc_created a)).
Definition late_from (d : N) (a : transfer_from_arg) : transfer_from_arg :=
  mkTransferFromArg (tf_spender_sub a) (tf_from a) (tf_to a) (tf_tid a) (tf_memo a) (option_map (fun t => t + d) (tf_created a)).
Definition late_op (d : N) (o : op) : op :=
  match o with
  | OTransfer l => OTransfer (map (late_transfer d) l)
  | OApproveTokens l => OApproveTokens (map (fun a => mkApproveArg (ap_tid a) (late_info d (ap_info a))) l)
  | OApproveCollection l => OApproveCollection (map (late_info d) l)
  | ORevokeTokens l => ORevokeTokens (map (late_revoke d) l)
  | ORevokeCollection l => ORevokeCollection (map (late_revoke_coll d) l)
  | OTransferFrom l => OTransferFrom (map (late_from d) l)
  | OReply id r => OReply id (late_reply d r)
  | _ => o
  end.

Definition late_res (d : N) (r : res N) : res N := match r with Ok n => Ok n | Err e => Err (late_err d e) end.
Definition late_ans (d : N) (a : answer) : answer :=
  match a with ABatch l => ABatch (map (late_res d) l) | AErr e => AErr (late_err d e) | _ => a end.

(** A block as it would have been [d] earlier; the log says of a later block what it would have said of the earlier one. *)
Definition early_tx (d : N) (t : tx) : tx :=
  mkTx (tx_btype t) (tx_time t - d) (tx_tid t) (tx_from t) (tx_to t) (tx_spender t) (option_map (fun t => t - d) (tx_exp t))
    (tx_meta t) (tx_memo t) (option_map (fun t => t - d) (tx_created t)).
Definition late_env (d : N) (e : env) : env := mkEnv (e_caller e) (e_now e + d) (fun k t => e_log e k (early_tx d t)).

(** The later clock, with the settings of the time checks added, still fits 64 bits. *)
Definition fits (d : N) (e : env) (s : state) : Prop :=
  e_now e + d + default default_drift (c_drift (cfg s)) + default default_tx_window (c_tx_window (cfg s)) < two64.

Lemma existsb_fmap {K : Type} `{Countable K} {A B : Type} (f : A -> B) (P : K * B -> bool) (Q : K * A -> bool) (m : gmap K A) :
  (forall (k : K) (x : A), P (k, f x) = Q (k, x)) -> existsb P (map_to_list (f <$> m)) = existsb Q (map_to_list m).
Proof.
  intros E. apply eq_true_iff_eq. rewrite !existsb_exists. split.
  - intros ([k y] & I & B'). apply elem_of_list_In, elem_of_map_to_list in I. rewrite lookup_fmap in I.
    destruct (m !! k) as [x|] eqn:L; [|discriminate]. injection I as <-. rewrite E in B'.
    exists (k, x). split; [apply elem_of_list_In, elem_of_map_to_list; exact L|exact B'].
  - intros ([k x] & I & B'). apply elem_of_list_In, elem_of_map_to_list in I.
    exists (k, f x). split; [apply elem_of_list_In, elem_of_map_to_list; rewrite lookup_fmap, I; reflexivity|]. rewrite E. exact B'.
Qed.

(** ** One message *)

Section late.
Context (d : N).

Lemma late_tx_inv t : early_tx d (late_tx d t) = t.
Proof.
  destruct t as [? ? ? ? ? ? x ? ? y]. unfold early_tx, late_tx. cbn.
  assert (E : forall o : option N, option_map (fun t => t - d) (option_map (fun t => t + d) o) = o)
    by (intros [a|]; cbn; [rewrite N.add_sub|]; reflexivity).
  rewrite !E, N.add_sub. reflexivity.
Qed.

Lemma window_late now l :
  filter (fun t => sat_sub (now + d) t < window_ns) (map (fun t => t + d) l) =
    map (fun t => t + d) (filter (fun t => sat_sub now t < window_ns) l).
Proof.
  induction l as [|t l IH]; [reflexivity|]. cbn [map]. rewrite !filter_cons.
  destruct (decide (sat_sub (now + d) (t + d) < window_ns)) as [D|D], (decide (sat_sub now t < window_ns)) as [D'|D'];
    unfold sat_sub in *; try lia; cbn [map]; rewrite IH; reflexivity.
Qed.

Lemma set_windows_late k l s :
  set_windows (<[k := map (fun t => t + d) l]> (map (fun t => t + d) <$> windows s)) (late d s) = late d (set_windows (<[k := l]> (windows s)) s).
Proof. unfold late, set_windows. cbn. f_equal. rewrite fmap_insert. reflexivity. Qed.

Lemma guard_late now t s :
  guard_sliding_window (now + d) t (late d s) = (late d (fst (guard_sliding_window now t s)), snd (guard_sliding_window now t s)) /\
  (snd (guard_sliding_window now t s) = false ->
     rate_limit_msg (now + d) t (late d (fst (guard_sliding_window now t s))) = rate_limit_msg now t (fst (guard_sliding_window now t s))) /\
  cfg (fst (guard_sliding_window now t s)) = cfg s.
Proof.
  unfold guard_sliding_window. cbn [windows late]. rewrite lookup_fmap.
  replace (default [] (map (fun t => t + d) <$> windows s !! t)) with (map (fun t => t + d) (default [] (windows s !! t)))
    by (destruct (windows s !! t); reflexivity).
  rewrite window_late. unfold nlen. rewrite map_length. set (kept := filter _ _). fold (late d s).
  change [now + d] with (map (fun t => t + d) [now]). rewrite <- map_app, !set_windows_late.
  destruct (window_calls <=? N.of_nat (length kept)) eqn:W; cbn [fst snd]; (split; [reflexivity|split; [|reflexivity]]); [|discriminate].
  intros _. unfold rate_limit_msg. do 4 f_equal. cbn. rewrite lookup_fmap, lookup_insert. cbn.
  destruct kept as [|o r]; [discriminate W|]. cbn. unfold sub64. f_equal. lia.
Qed.

Lemma add_late e t s :
  add_transaction (late_env d e) (late_tx d t) (late d s) = (late d (fst (add_transaction e t s)), snd (add_transaction e t s)).
Proof.
  unfold add_transaction. cbn. rewrite late_tx_inv. destruct (e_log e (lcalls s) t); try reflexivity.
  cbn. f_equal. unfold late, set_log, set_lcalls. cbn. f_equal. rewrite map_app. reflexivity.
Qed.

Lemma move_late nft to s : move_token nft to (late d s) = late d (move_token nft to s).
Proof. reflexivity. Qed.

Lemma apps_size m : size (late_apps d m) = size m.
Proof. apply map_size_fmap. Qed.
Lemma apps_lookup m k : late_apps d m !! k = late_entry d <$> m !! k.
Proof. apply lookup_fmap. Qed.
Lemma apps_delete m k : delete k (late_apps d m) = late_apps d (delete k m).
Proof. unfold late_apps. rewrite fmap_delete. reflexivity. Qed.
Lemma apps_empty : late_apps d ∅ = ∅.
Proof. apply fmap_empty. Qed.
Lemma apps_insert sp a m : appmap_insert sp (late_appr d a) (late_apps d m) = late_apps d (appmap_insert sp a m).
Proof.
  unfold appmap_insert. rewrite apps_lookup. destruct (m !! akey sp) as [[k b]|]; cbn; unfold late_apps; rewrite fmap_insert; reflexivity.
Qed.
Lemma apps_revoke sp m : revoke_from sp (late_apps d m) = late_apps d (revoke_from sp m).
Proof. destruct sp as [sp|]; cbn; [apply apps_delete|symmetry; apply apps_empty]. Qed.
Lemma apps_default m : default ∅ (late_apps d <$> m) = late_apps d (default ∅ m).
Proof. destruct m; cbn; [reflexivity|symmetry; apply apps_empty]. Qed.

Lemma set_tok_appr_late k m s :
  set_tok_appr (<[k := late_apps d m]> (late_apps d <$> tok_appr s)) (late d s) = late d (set_tok_appr (<[k := m]> (tok_appr s)) s).
Proof. unfold late, set_tok_appr. cbn. f_equal. rewrite fmap_insert. reflexivity. Qed.
Lemma set_col_appr_late k m s :
  set_col_appr (<[k := late_apps d m]> (late_apps d <$> col_appr s)) (late d s) = late d (set_col_appr (<[k := m]> (col_appr s)) s).
Proof. unfold late, set_col_appr. cbn. f_equal. rewrite fmap_insert. reflexivity. Qed.

(** What a call does by the later clock. *)
Definition follows {B} (h : B -> B) (F' F : option (state * B)) : Prop :=
  F' = match F with None => None | Some (s', r) => Some (late d s', h r) end.

Lemma items_late {A} e (F F' : state -> A -> option (state * res N)) (h : A -> A) :
  (forall s a, fits d e s -> follows (late_res d) (F' (late d s) (h a)) (F s a)) ->
  (forall s a s' r, F s a = Some (s', r) -> cfg s' = cfg s) ->
  forall l s, fits d e s -> follows (map (late_res d)) (run_items F' (late d s) (map h l)) (run_items F s l).
Proof.
  intros E C l. induction l as [|a l IH]; intros s T; [reflexivity|]. unfold follows. cbn. rewrite (E s a T).
  destruct (F s a) as [[s1 b]|] eqn:X; [|reflexivity].
  rewrite IH by (unfold fits; rewrite (C _ _ _ _ X); exact T). destruct (run_items F s1 l) as [[s2 bs]|]; reflexivity.
Qed.

(** *** The time checks *)

Lemma timing_late s c now :
  now + d + default default_drift (c_drift (cfg s)) + default default_tx_window (c_tx_window (cfg s)) < two64 ->
  verify_approval_timing (late d s) (c + d) (now + d) =
    match verify_approval_timing s c now with TimeFuture t => TimeFuture (t + d) | x => x end.
Proof.
  intros T. unfold verify_approval_timing. cbn [cfg late]. unfold u64_try.
  set (dr := default default_drift (c_drift (cfg s))) in *. set (w := default default_tx_window (c_tx_window (cfg s))) in *.
  destruct (dr <? two64) eqn:D; [|apply N.ltb_ge in D; lia]. destruct (w <? two64) eqn:W; [|apply N.ltb_ge in W; lia].
  cbn [default]. unfold add64. rewrite (N.mod_small (now + dr)), (N.mod_small (now + d + dr)) by lia.
  destruct (now + dr <? c) eqn:F; [apply N.ltb_lt in F; rewrite (proj2 (N.ltb_lt _ _)) by lia; reflexivity|].
  apply N.ltb_ge in F. rewrite (proj2 (N.ltb_ge _ _)) by lia. rewrite (N.mod_small (c + w)), (N.mod_small (c + d + w)) by lia.
  destruct (c + w <? now) eqn:O; [apply N.ltb_lt in O; rewrite (proj2 (N.ltb_lt _ _)) by lia; reflexivity|].
  apply N.ltb_ge in O. rewrite (proj2 (N.ltb_ge _ _)) by lia. reflexivity.
Qed.

Lemma opt_timing_late s c now :
  now + d + default default_drift (c_drift (cfg s)) + default default_tx_window (c_tx_window (cfg s)) < two64 ->
  verify_opt_timing (late d s) (option_map (fun t => t + d) c) (now + d) =
    match verify_opt_timing s c now with TimeFuture t => TimeFuture (t + d) | x => x end.
Proof. intros T. destruct c as [c|]; [apply timing_late; exact T|reflexivity]. Qed.

Ltac go_g T := match goal with
  | |- context [guard_sliding_window (?n + d) ?t (late d ?s)] =>
      let G := fresh "G" in let M := fresh "M" in let C := fresh "C" in
      destruct (guard_late n t s) as (G & M & C); rewrite G; clear G;
      destruct (guard_sliding_window n t s) as [? []]; cbn [fst snd negb] in *;
      [clear M; unfold fits in T; rewrite <- C in T
      |rewrite M by reflexivity; reflexivity]
  end.
Ltac tx_is t := match goal with
  | |- context [add_transaction (late_env d ?e) ?x _] => change x with (late_tx d t)
  end.

Lemma transfer_late e s a : fits d e s ->
  follows (late_res d) (transfer_nft (late_env d e) (late d s) (late_transfer d a)) (transfer_nft e s a).
Proof.
  intros T. unfold follows, transfer_nft. cbn [ta_tid ta_to ta_memo ta_created e_now e_caller late_env late_transfer]. go_g T.
  cbn [tokens late]. destruct (tokens s0 !! ta_tid a) as [nft|]; [|reflexivity]. fold (late d s0).
  change (check_memo (late d s0) (ta_memo a)) with (check_memo s0 (ta_memo a)). destruct (check_memo s0 (ta_memo a)) as [[]|]; try reflexivity.
  destruct (negb _ || _ || _); [reflexivity|].
  assert (DT : default (e_now e + d) (option_map (fun t => t + d) (ta_created a)) = default (e_now e) (ta_created a) + d)
    by (destruct (ta_created a); reflexivity).
  rewrite DT. set (tm := default (e_now e) (ta_created a)). cbn [cfg late]. fold (late d s0).
  assert (S : forall o (x : N), u64_setting o x = Some (default x o) \/ (two64 <= default x o /\ u64_setting o x = None)).
  { intros [o|] x; [|left; reflexivity]. cbn. unfold u64_try. destruct (o <? two64) eqn:B; [left; reflexivity|right]. apply N.ltb_ge in B. auto. }
  destruct (S (c_drift (cfg s0)) default_drift) as [->|[B ->]]; [|lia].
  destruct (S (c_tx_window (cfg s0)) default_tx_window) as [->|[B ->]]; [|lia]. clear S.
  set (dr := default default_drift _) in *. set (w := default default_tx_window _) in *.
  replace (add64 (e_now e + d) dr) with (e_now e + d + dr) by (unfold add64; rewrite N.mod_small by lia; reflexivity).
  replace (add64 (e_now e) dr) with (e_now e + dr) by (unfold add64; rewrite N.mod_small by lia; reflexivity).
  destruct (e_now e + dr <? tm) eqn:F; [apply N.ltb_lt in F; rewrite (proj2 (N.ltb_lt _ _)) by lia; reflexivity|].
  apply N.ltb_ge in F. rewrite (proj2 (N.ltb_ge _ _)) by lia. unfold sat_sub.
  destruct (tm <? e_now e - add64 w dr) eqn:O; [apply N.ltb_lt in O; rewrite (proj2 (N.ltb_lt _ _)) by lia; reflexivity|].
  apply N.ltb_ge in O. rewrite (proj2 (N.ltb_ge _ _)) by lia. fold (late_env d e).
  tx_is (transfer_tx (e_now e) nft a tm). rewrite add_late. destruct (add_transaction e _ s0) as [s2 []]; reflexivity.
Qed.

Lemma approve_late e s a : fits d e s ->
  follows (late_res d) (approve_token (late_env d e) (late d s) (mkApproveArg (ap_tid a) (late_info d (ap_info a)))) (approve_token e s a).
Proof.
  intros T. unfold follows, approve_token. cbn [ap_tid ap_info e_now e_caller late_env]. go_g T.
  cbn [ai_created late_info]. rewrite timing_late by exact T. destruct (verify_approval_timing _ _ _); try reflexivity.
  change (owner_of (late d s0)) with (owner_of s0). destruct (owner_of s0 (ap_tid a)) as [ow|]; [|reflexivity].
  cbn [ai_from_sub ai_spender late_info]. destruct (negb _); [reflexivity|]. destruct (acc_eqb _ anonymous_account); [reflexivity|].
  cbn [cfg late tok_appr]. rewrite lookup_fmap.
  assert (X : match late_apps d <$> tok_appr s0 !! ap_tid a with Some m => usize_limit (c_max_appr (cfg s0)) <=? N.of_nat (size m) | None => false end =
    match tok_appr s0 !! ap_tid a with Some m => usize_limit (c_max_appr (cfg s0)) <=? N.of_nat (size m) | None => false end)
    by (destruct (tok_appr s0 !! ap_tid a); cbn; [rewrite apps_size|]; reflexivity).
  cbn [late cfg] in X |- *. rewrite X. clear X. destruct (match tok_appr s0 !! ap_tid a with Some _ => _ | None => _ end); [reflexivity|].
  fold (late_env d e). fold (late d s0).
  tx_is (approve_tx "37approve" (e_now e) (Some (ap_tid a)) (mkAcc (e_caller e) (ai_from_sub (ap_info a))) (ap_info a)).
  rewrite add_late. destruct (add_transaction e _ s0) as [s2 []]; cbn [fst snd]; try reflexivity.
  destruct (_ <? _); [|reflexivity]. cbn [tok_appr late]. rewrite lookup_fmap, apps_default.
  change (new_approval (late_info d (ap_info a)) (mkAcc (e_caller e) (ai_from_sub (ap_info a))) (e_now e + d))
    with (late_appr d (new_approval (ap_info a) (mkAcc (e_caller e) (ai_from_sub (ap_info a))) (e_now e))).
  rewrite apps_insert. fold (late d s2). rewrite set_tok_appr_late. reflexivity.
Qed.

Lemma approve_coll_late e s i : fits d e s ->
  follows (late_res d) (approve_collection (late_env d e) (late d s) (late_info d i)) (approve_collection e s i).
Proof.
  intros T. unfold follows, approve_collection. cbn [e_now e_caller late_env]. go_g T.
  cbn [ai_created late_info]. rewrite timing_late by exact T. destruct (verify_approval_timing _ _ _); try reflexivity.
  cbn [ai_from_sub ai_spender late_info]. destruct (acc_eqb _ anonymous_account); [reflexivity|].
  change (has_nfts (late d s0)) with (has_nfts s0). destruct (negb _); [reflexivity|].
  cbn [cfg late col_appr]. rewrite lookup_fmap. set (k := akey (mkAcc (e_caller e) (ai_from_sub i))).
  assert (X : match late_apps d <$> col_appr s0 !! k with Some m => usize_limit (c_max_appr (cfg s0)) <=? N.of_nat (size m) | None => false end =
    match col_appr s0 !! k with Some m => usize_limit (c_max_appr (cfg s0)) <=? N.of_nat (size m) | None => false end)
    by (destruct (col_appr s0 !! k); cbn; [rewrite apps_size|]; reflexivity).
  cbn [late cfg] in X |- *. rewrite X. clear X. destruct (match col_appr s0 !! k with Some _ => _ | None => _ end); [reflexivity|].
  fold (late_env d e). fold (late d s0).
  tx_is (approve_tx "37approve_coll" (e_now e) None (mkAcc (e_caller e) (ai_from_sub i)) i).
  rewrite add_late. destruct (add_transaction e _ s0) as [s2 []]; cbn [fst snd]; try reflexivity.
  cbn [col_appr late]. rewrite lookup_fmap, apps_default.
  change (new_approval (late_info d i) (mkAcc (e_caller e) (ai_from_sub i)) (e_now e + d))
    with (late_appr d (new_approval i (mkAcc (e_caller e) (ai_from_sub i)) (e_now e))).
  rewrite apps_insert. fold (late d s2). rewrite set_col_appr_late. reflexivity.
Qed.

Lemma revoke_late e s a : fits d e s ->
  follows (late_res d) (revoke_token_approvals (late_env d e) (late d s) (late_revoke d a)) (revoke_token_approvals e s a).
Proof.
  intros T. unfold follows, revoke_token_approvals. cbn [rv_spender rv_from_sub rv_tid rv_memo rv_created e_now e_caller late_env late_revoke].
  rewrite opt_timing_late by exact T. destruct (verify_opt_timing _ _ _); try reflexivity.
  change (owner_of (late d s)) with (owner_of s). destruct (owner_of s (rv_tid a)) as [ow|]; [|reflexivity].
  destruct (negb _); [reflexivity|]. cbn [tok_appr late]. rewrite lookup_fmap.
  destruct (tok_appr s !! rv_tid a) as [m|]; cbn [fmap option_fmap option_map]; [|reflexivity].
  fold (late_env d e). fold (late d s).
  tx_is (revoke_tx "37revoke" (e_now e) (Some (rv_tid a)) (mkAcc (e_caller e) (rv_from_sub a)) (rv_spender a) (rv_memo a) (rv_created a)).
  rewrite add_late. destruct (add_transaction e _ s) as [s2 []]; cbn [fst snd]; try reflexivity.
  cbn [tok_appr late]. fold (late d s2). rewrite apps_revoke, set_tok_appr_late. reflexivity.
Qed.

Lemma revoke_coll_late e s a : fits d e s ->
  follows (late_res d) (revoke_collection_approvals (late_env d e) (late d s) (late_revoke_coll d a)) (revoke_collection_approvals e s a).
Proof.
  intros T. unfold follows, revoke_collection_approvals. cbn [rc_spender rc_from_sub rc_memo rc_created e_now e_caller late_env late_revoke_coll].
  go_g T. rewrite opt_timing_late by exact T. destruct (verify_opt_timing _ _ _); try reflexivity.
  cbn [col_appr late]. rewrite lookup_fmap.
  destruct (col_appr s0 !! _) as [m|]; cbn [fmap option_fmap option_map]; [|reflexivity].
  fold (late_env d e). fold (late d s0).
  tx_is (revoke_tx "37revoke_coll" (e_now e) None (mkAcc (e_caller e) None) (rc_spender a) (rc_memo a) (rc_created a)).
  rewrite add_late. destruct (add_transaction e _ s0) as [s2 []]; cbn [fst snd]; try reflexivity.
  cbn [col_appr late]. fold (late d s2). rewrite apps_revoke, set_col_appr_late. reflexivity.
Qed.

Lemma unexpired_late now ap : unexpired (now + d) (late_appr d ap) = unexpired now ap.
Proof. destruct ap as [? ? [x|] ? ?]; cbn; [|reflexivity]. apply eq_true_iff_eq. rewrite !N.ltb_lt. lia. Qed.

Lemma has_valid_late now m k : has_valid (now + d) (late_apps d <$> m) k = has_valid now m k.
Proof.
  destruct m as [m|]; cbn; [|reflexivity]. rewrite apps_lookup. destruct (m !! k) as [[x ap]|]; [|reflexivity]. apply unexpired_late.
Qed.

Lemma drop_tok_late now k sp s :
  set_tok_appr (drop_expired (now + d) k sp (late_apps d <$> tok_appr s)) (late d s) =
    late d (set_tok_appr (drop_expired now k sp (tok_appr s)) s).
Proof.
  unfold drop_expired. rewrite lookup_fmap. destruct (tok_appr s !! k) as [m|]; cbn [fmap option_fmap option_map]; [|reflexivity].
  rewrite apps_lookup. destruct (m !! sp) as [[x ap]|]; cbn [fmap option_fmap option_map late_entry fst snd]; [|reflexivity].
  rewrite unexpired_late. destruct (unexpired now ap); [reflexivity|]. rewrite apps_delete, set_tok_appr_late. reflexivity.
Qed.
Lemma drop_col_late now k sp s :
  set_col_appr (drop_expired (now + d) k sp (late_apps d <$> col_appr s)) (late d s) =
    late d (set_col_appr (drop_expired now k sp (col_appr s)) s).
Proof.
  unfold drop_expired. rewrite lookup_fmap. destruct (col_appr s !! k) as [m|]; cbn [fmap option_fmap option_map]; [|reflexivity].
  rewrite apps_lookup. destruct (m !! sp) as [[x ap]|]; cbn [fmap option_fmap option_map late_entry fst snd]; [|reflexivity].
  rewrite unexpired_late. destruct (unexpired now ap); [reflexivity|]. rewrite apps_delete, set_col_appr_late. reflexivity.
Qed.

Lemma transfer_from_late e s a : fits d e s ->
  follows (late_res d) (transfer_from (late_env d e) (late d s) (late_from d a)) (transfer_from e s a).
Proof.
  intros T. unfold follows, transfer_from. cbn [tf_spender_sub tf_from tf_to tf_tid tf_memo tf_created e_now e_caller late_env late_from].
  go_g T. rewrite opt_timing_late by exact T. destruct (verify_opt_timing _ _ _); try reflexivity.
  cbn [tokens late]. destruct (tokens s0 !! tf_tid a) as [nft|]; [|reflexivity].
  destruct (acc_eqb (tf_from a) _); [reflexivity|]. destruct (acc_eqb _ anonymous_account); [reflexivity|].
  fold (late_env d e). fold (late d s0). rewrite !check_token_approval_eq, !check_collection_approval_eq.
  change (tok_appr (late d s0)) with (late_apps d <$> tok_appr s0). rewrite lookup_fmap, has_valid_late, drop_tok_late.
  set (s1 := set_tok_appr (drop_expired _ _ _ _) s0).
  change (col_appr (late d s1)) with (late_apps d <$> col_appr s1). rewrite lookup_fmap, has_valid_late, drop_col_late.
  set (s2 := set_col_appr (drop_expired _ _ _ _) s1). destruct (negb _ || _); [reflexivity|].
  tx_is (transfer_from_tx (e_now e) a (mkAcc (e_caller e) (tf_spender_sub a))).
  rewrite add_late. destruct (add_transaction e _ s2) as [s4 []]; cbn [fst snd]; try reflexivity.
  2: { unfold transfer_from_log_err. destruct (str_contains _ _); reflexivity. }
  rewrite move_late. cbn [late_res]. f_equal. f_equal. set (s5 := move_token nft (tf_to a) s4).
  unfold late, set_tok_appr, set_col_appr. cbn. f_equal; rewrite fmap_delete; reflexivity.
Qed.

(** *** Management calls *)

Lemma guard_new_late p s : guard_new p (late d s) = late d <$> guard_new p s.
Proof. unfold guard_new. cbn [guards late]. destruct (_ <=? _)%nat; reflexivity. Qed.

Definition late_m {A} (r : mres A) : mres A := match r with MErr e => MErr (late_err d e) | _ => r end.

Lemma lock_late {A} e s (body' body : state -> option (state * mres A)) :
  (forall s, follows late_m (body' (late d s)) (body s)) ->
  follows late_m (with_lock (late_env d e) (late d s) body') (with_lock e s body).
Proof.
  intros B. unfold follows, with_lock. cbn [e_caller late_env]. rewrite guard_new_late.
  destruct (guard_new (e_caller e) s) as [s1|]; cbn [fmap option_fmap option_map]; [|reflexivity].
  rewrite (B s1). destruct (body s1) as [[s2 r]|]; reflexivity.
Qed.

Lemma permission_late {A} q m e s (b' b : option (state * mres A)) :
  follows late_m b' b -> follows late_m (with_permission q m (late_env d e) (late d s) b') (with_permission q m e s b).
Proof.
  intros B. unfold follows, with_permission. cbn [e_caller late_env]. change (has_permission (late d s)) with (has_permission s).
  destruct (has_permission _ _ _); [exact B|reflexivity].
Qed.

Lemma mint_log_late e id l s :
  mint_log (late_env d e) id l (late d s) = (late d (fst (mint_log e id l s)), snd (mint_log e id l s)).
Proof.
  revert id s. induction l as [|r l IH]; intros id s; [reflexivity|]. cbn [mint_log].
  tx_is (mint_tx (e_now e) id r). rewrite add_late. destruct (add_transaction e _ s) as [s1 []]; cbn [fst snd]; try reflexivity. apply IH.
Qed.
Lemma mint_insert_late id l s : mint_insert id l (late d s) = late d (mint_insert id l s).
Proof. revert id s. induction l as [|r l IH]; intros id s; [reflexivity|]. cbn [mint_insert]. rewrite <- IH. reflexivity. Qed.
Lemma check_memos_late s l : check_memos (late d s) l = check_memos s l.
Proof.
  induction l as [|r l IH]; [reflexivity|]. cbn. change (check_memo (late d s)) with (check_memo s).
  destruct (check_memo s (mr_memo r)) as [[]|]; auto.
Qed.

Lemma mint_late e s l : follows late_m (mint (late_env d e) (late d s) l) (mint e s l).
Proof.
  unfold mint. apply permission_late, lock_late. intros s1. unfold follows, mint_body. cbn [cfg last_id tokens metas late].
  destruct (_ <? _); [reflexivity|]. destruct (_ <? _); [reflexivity|].
  fold (late d s1). rewrite check_memos_late. destruct (check_memos s1 l) as [[]|]; try reflexivity.
  destruct (mint_metadata _ _ _) as [m|]; [|reflexivity].
  change (set_metas m (late d s1)) with (late d (set_metas m s1)). rewrite mint_log_late.
  destruct (mint_log e _ l _) as [s2 [msg|]]; cbn [fst snd]; [reflexivity|].
  change (set_last_id ?n (late d s2)) with (late d (set_last_id n s2)). rewrite mint_insert_late. reflexivity.
Qed.

Lemma update_late e s t kvs : follows late_m (update_nft_metadata (late_env d e) (late d s) t kvs) (update_nft_metadata e s t kvs).
Proof.
  unfold update_nft_metadata. apply permission_late, lock_late. intros s1. unfold follows, update_nft_metadata_body.
  cbn [tokens metas late]. destruct (tokens s1 !! t) as [tok|] eqn:T; [|reflexivity].
  destruct (replace_metadata _ _ _) as [m|]; [|reflexivity]. fold (late d s1). cbn [metas set_metas].
  change (set_metas m (late d s1)) with (late d (set_metas m s1)).
  tx_is (update_meta_tx e t (meta_value t (metas s1)) (meta_value t m)).
  rewrite add_late. destruct (add_transaction e _ _) as [s2 []]; reflexivity.
Qed.

Lemma burn_late e s t : follows late_m (burn_nft (late_env d e) (late d s) t) (burn_nft e s t).
Proof.
  unfold burn_nft. apply lock_late. intros s1. unfold follows, burn_body.
  cbn [tokens late e_caller e_now late_env]. destruct (tokens s1 !! t) as [tok|] eqn:T; [|reflexivity].
  destruct (negb _); [reflexivity|]. fold (late_env d e) (late d s1). tx_is (burn_tx (e_now e) t tok).
  rewrite add_late. destruct (add_transaction e _ _) as [s2 []]; reflexivity.
Qed.

Lemma grant_late e s p q : follows late_m (grant_permission (late_env d e) (late d s) p q) (grant_permission e s p q).
Proof. unfold grant_permission. apply permission_late, lock_late. intros s1. reflexivity. Qed.
Lemma revoke_perm_late e s p q : follows late_m (revoke_permission (late_env d e) (late d s) p q) (revoke_permission e s p q).
Proof. unfold revoke_permission. apply permission_late, lock_late. intros s1. reflexivity. Qed.
Lemma collection_late e s u : follows late_m (update_collection_metadata (late_env d e) (late d s) u) (update_collection_metadata e s u).
Proof. unfold update_collection_metadata. apply permission_late, lock_late. intros s1. reflexivity. Qed.

(** *** Uploads *)

Lemma entry_late e s (F' F : state -> state * (err + pending)) :
  (forall s, F' (late d s) = (late d (fst (F s)), match snd (F s) with inl x => inl (late_err d x) | inr p => inr (late_pending d p) end)) ->
  upload_entry (late_env d e) (late d s) F' = (late d (fst (upload_entry e s F)), late_m <$> snd (upload_entry e s F)).
Proof.
  intros E. unfold upload_entry. cbn [e_caller late_env]. change (has_permission (late d s)) with (has_permission s).
  rewrite guard_new_late. destruct (has_permission _ _ _); [|reflexivity].
  destruct (guard_new (e_caller e) s) as [s1|]; cbn [fmap option_fmap option_map]; [|reflexivity].
  rewrite E. destruct (F s1) as [s2 [x|p]]; cbn [fst snd]; [reflexivity|].
  f_equal. unfold late, set_next_pend, set_pend. cbn. f_equal. rewrite fmap_insert. reflexivity.
Qed.

Lemma contains_late s path : contains_path (late d s) path = contains_path s path.
Proof.
  unfold contains_path. cbn [files late]. apply existsb_fmap. reflexivity.
Qed.

Lemma continue_late now p r s :
  continue (now + d) (late_pending d p) (late_reply d r) (late d s) = (late d (fst (continue now p r s)), late_m <$> snd (continue now p r s)).
Proof.
  destruct p, r; try reflexivity; cbn; f_equal; unfold late, set_files, set_subs, set_redirs; cbn; f_equal;
    rewrite ?fmap_insert, ?fmap_delete; reflexivity.
Qed.

Lemma resume_late now id r s :
  resume (now + d) id (late_reply d r) (late d s) = (late d (fst (resume now id r s)), late_m <$> snd (resume now id r s)).
Proof.
  unfold resume. cbn [pend late]. rewrite lookup_fmap. destruct (pend s !! id) as [p|]; cbn [fmap option_fmap option_map]; [|reflexivity].
  fold (late d s). rewrite continue_late. destruct (continue now p r s) as [s1 a]; cbn [fst snd].
  assert (C : pending_caller (late_pending d p) = pending_caller p) by (destruct p; reflexivity). rewrite C.
  f_equal. unfold late, set_pend, guard_drop, set_guards. cbn. f_equal. rewrite fmap_delete. reflexivity.
Qed.

(** ** The theorem *)

Ltac batch := match goal with
  | |- context [ans_batch _ ?F] => let s' := fresh in destruct F as [[s' ?]|]; reflexivity
  end.

Lemma step_late e o s : fits d e s ->
  step (late_env d e) (late_op d o) (late d s) = (late d (fst (step e o s)), late_ans d (snd (step e o s))).
Proof.
  intros T. destruct o; cbn [late_op step].
  - assert (E : follows (map (late_res d)) (icrc7_transfer (late_env d e) (late d s) (map (late_transfer d) args)) (icrc7_transfer e s args)).
    { unfold follows, icrc7_transfer. destruct args as [|a l]; [reflexivity|].
      cbn [map]. cbn [cfg late e_caller late_env]. destruct (usize_try _) as [mx|]; [|reflexivity].
      unfold nlen. cbn [length]. rewrite map_length. destruct (_ && _); [reflexivity|].
      destruct (bool_decide _); [reflexivity|]. fold (late_env d e) (late d s).
      pose proof (PropertiesRename.take_n_map (late_transfer d) mx (a :: l)) as X. cbn [map] in X. rewrite X.
      apply (items_late e); [intros; apply transfer_late; assumption|apply transfer_item_cfg|exact T]. }
    rewrite E. batch.
  - unfold icrc37_approve_tokens. rewrite (items_late e (approve_token e)); [batch|intros; apply approve_late; assumption| |exact T].
    intros s0 a s' r H. destruct (approve_token_inv _ _ _ _ _ H) as [[Q _]|H']; [open_quiet; reflexivity|].
    cbv zeta in H'. decompose [ex and] H'. subst. open_quiet. reflexivity.
  - unfold icrc37_approve_collection. rewrite (items_late e (approve_collection e)); [batch|intros; apply approve_coll_late; assumption| |exact T].
    intros s0 a s' r H. destruct (approve_collection_inv _ _ _ _ _ H) as [[Q _]|H']; [open_quiet; reflexivity|].
    cbv zeta in H'. decompose [ex and] H'. subst. open_quiet. reflexivity.
  - unfold icrc37_revoke_token_approvals. destruct args as [|a l]; [reflexivity|]. cbn [map rv_tid e_now late_env late_revoke]. go_g T.
    fold (late_env d e). cbn [cfg late]. fold (late d s0).
    pose proof (PropertiesRename.take_n_map (late_revoke d) (usize_limit (c_max_revoke (cfg s0))) (a :: l)) as X.
    cbn [map] in X. rewrite X. rewrite (items_late e (revoke_token_approvals e));
      [|intros; apply revoke_late; assumption| |exact T].
    { destruct (run_items _ _ _) as [[]|]; reflexivity. }
    intros s1 b s' r H. destruct (revoke_token_inv _ _ _ _ _ H) as [[Q _]|H']; [open_quiet; reflexivity|].
    cbv zeta in H'. decompose [ex and] H'. subst. open_quiet. reflexivity.
  - unfold icrc37_revoke_collection_approvals. cbn [cfg late]. fold (late d s).
    rewrite PropertiesRename.take_n_map, (items_late e (revoke_collection_approvals e)); [batch|intros; apply revoke_coll_late; assumption| |exact T].
    intros s1 b s' r H. destruct (revoke_collection_inv _ _ _ _ _ H) as [[Q _]|H']; [open_quiet; reflexivity|].
    cbv zeta in H'. decompose [ex and] H'. subst. open_quiet. reflexivity.
  - unfold icrc37_transfer_from. rewrite (items_late e (transfer_from e)); [batch|intros; apply transfer_from_late; assumption| |exact T].
    intros s1 b s' r H. destruct (transfer_from_inv _ _ _ _ _ H) as
      [[Q _]|[(nft & s2 & er & _ & Q & _ & ->)|(nft & s2 & i & _ & Q & _ & _ & _ & _ & _ & _ & ->)]]; open_quiet; reflexivity.
  - rewrite collection_late. destruct (update_collection_metadata e s u) as [[? []]|]; reflexivity.
  - rewrite mint_late. destruct (mint e s reqs) as [[? []]|]; reflexivity.
  - rewrite update_late. destruct (update_nft_metadata e s tid kvs) as [[? []]|]; reflexivity.
  - rewrite burn_late. destruct (burn_nft e s tid) as [[? []]|]; reflexivity.
  - rewrite grant_late. destruct (grant_permission e s p perm) as [[? []]|]; reflexivity.
  - rewrite revoke_perm_late. destruct (revoke_permission e s p perm) as [[? []]|]; reflexivity.
  - unfold init_upload. rewrite (entry_late e s _ (init_upload_first e path size)).
    + destruct (upload_entry e s _) as [? [[]|]]; reflexivity.
    + intros s1. unfold init_upload_first. rewrite contains_late. destruct (contains_path _ _); [reflexivity|]. destruct (_ <? _); reflexivity.
  - unfold store_chunk. rewrite (entry_late e s _ (store_chunk_first e path)).
    + destruct (upload_entry e s _) as [? [[]|]]; reflexivity.
    + intros s1. unfold store_chunk_first. cbn [files subs late]. rewrite lookup_fmap. destruct (files s1 !! path) as [u|]; cbn [fmap option_fmap option_map]; [|reflexivity].
      cbn [late_up u_state u_canister]. destruct (u_state u); try reflexivity; destruct (bool_decide _); try reflexivity;
        cbn; f_equal; unfold late, set_files; cbn; f_equal; rewrite fmap_delete; reflexivity.
  - unfold finalize_upload. rewrite (entry_late e s _ (finalize_upload_first e path)).
    + destruct (upload_entry e s _) as [? [[]|]]; reflexivity.
    + intros s1. unfold finalize_upload_first. cbn [files subs late]. rewrite lookup_fmap. destruct (files s1 !! path) as [u|]; cbn [fmap option_fmap option_map]; [|reflexivity].
      cbn [late_up u_state u_canister]. destruct (u_state u); try reflexivity; destruct (bool_decide _); try reflexivity;
        cbn; f_equal; unfold late, set_files; cbn; f_equal; rewrite fmap_delete; reflexivity.
  - unfold cancel_upload. rewrite (entry_late e s _ (cancel_upload_first e path)).
    + destruct (upload_entry e s _) as [? [[]|]]; reflexivity.
    + intros s1. unfold cancel_upload_first. cbn [files subs late]. rewrite lookup_fmap. destruct (files s1 !! path) as [u|]; cbn [fmap option_fmap option_map]; [|reflexivity].
      cbn [late_up u_state u_canister]. destruct (u_state u); try reflexivity; destruct (bool_decide _); try reflexivity;
        cbn; f_equal; unfold late, set_files; cbn; f_equal; rewrite fmap_delete; reflexivity.
  - cbn [e_now late_env]. rewrite resume_late. destruct (resume (e_now e) id r s) as [? [[]|]]; reflexivity.
  - cbn. f_equal. unfold upgrade, late, set_pend, clone_state. cbn. f_equal. rewrite fmap_empty. reflexivity.
Qed.

End late.

(** A message sent [d] later, with all the times that are in it and all those that are in the ledger [d] later, leaves the same
    ledger with the times [d] later, and is answered the same but for the ledger time in the answer.  So only lengths of time
    count: there is no date on which the program begins to behave differently. *)
Theorem C152_step d e o s :
  fits d e s ->
  step (late_env d e) (late_op d o) (late d s) = (late d (fst (step e o s)), late_ans d (snd (step e o s))).
Proof. apply step_late. Qed.
Print Assumptions C152_step.

(** The later clock fits along a history. *)
Fixpoint fits_all (d : N) (h : history) (s : state) : Prop :=
  match h with
  | [] => True
  | (e, o) :: r => fits d e s /\ fits_all d r (fst (step e o s))
  end.

(** So it is for whole histories, with all the answers. *)
Theorem C152_history d h s :
  fits_all d h s ->
  let h' := map (fun eo => (late_env d (fst eo), late_op d (snd eo))) h in
  run h' (late d s) = late d (run h s) /\
  map ev_ans (trace h' (late d s)) = map (late_ans d) (map ev_ans (trace h s)).
Proof.
  cbv zeta. revert s. induction h as [|[e o] h IH]; intros s F; [split; reflexivity|].
  cbn [fits_all] in F. destruct F as [F1 F2].
  cbn [map run trace fst snd]. rewrite (C152_step d e o s F1). destruct (step e o s) as [s1 a]. cbn [fst snd map ev_ans] in *.
  destruct (IH s1 F2) as [E1 E2]. split; [exact E1|]. rewrite E2. reflexivity.
Qed.
Print Assumptions C152_history.

(** The ledger starts without any time in it, whenever it is installed. *)
Theorem C152_install d caller url_ok a s : init caller url_ok a = Some s -> late d s = s.
Proof.
  unfold init. destruct (match i_logo a with Some _ => _ | None => _ end); [discriminate|].
  destruct (match i_tx_window a with Some _ => _ | None => _ end); [|discriminate].
  destruct (bool_decide _); [discriminate|]. destruct (bool_decide _); [discriminate|].
  intros [= <-]. unfold late. cbn. rewrite !fmap_empty. reflexivity.
Qed.
Print Assumptions C152_install.

(** ** Reads *)

Lemma is_approved_late d s now a : is_approved (late d s) (now + d) a = is_approved s now a.
Proof.
  unfold is_approved. cbn [tok_appr col_appr late]. rewrite !lookup_fmap. f_equal; [f_equal|].
  - destruct (tok_appr s !! ia_tid a) as [m|]; cbn; [|reflexivity]. rewrite apps_lookup.
    destruct (m !! akey (ia_spender a)) as [[x ap]|]; cbn; [|reflexivity]. exact (unexpired_late d now ap).
  - rewrite apps_default. apply existsb_fmap. reflexivity.
Qed.

(** What is read of the later ledger at the later time is what is read of the ledger, with the times in it later. *)
Theorem C152_reads d s :
  (forall ids, icrc7_owner_of (late d s) ids = icrc7_owner_of s ids) /\
  (forall l, icrc7_balance_of (late d s) l = icrc7_balance_of s l) /\
  (forall prev tk, icrc7_tokens (late d s) prev tk = icrc7_tokens s prev tk) /\
  (forall a prev tk, icrc7_tokens_of (late d s) a prev tk = icrc7_tokens_of s a prev tk) /\
  (forall ids, icrc7_token_metadata (late d s) ids = icrc7_token_metadata s ids) /\
  icrc7_collection_metadata (late d s) = icrc7_collection_metadata s /\
  (forall now l, icrc37_is_approved (late d s) (now + d) l = icrc37_is_approved s now l) /\
  (forall t, token_approvals_entries (late d s) t ≡ₚ map (late_entry d) (token_approvals_entries s t)) /\
  (forall a, collection_approvals_entries (late d s) a ≡ₚ map (late_entry d) (collection_approvals_entries s a)) /\
  (forall l prev tk, approvals_page (map (late_entry d) l) prev tk = map (late_info d) (approvals_page l prev tk)) /\
  (forall c k, query_upload_status (late d s) c k = query_upload_status s c k).
Proof.
  assert (M : forall m : appmap, map snd (map_to_list (late_apps d m)) ≡ₚ map (late_entry d) (map snd (map_to_list m))).
  { intros m. unfold late_apps. rewrite map_to_list_fmap. change (map ?h ?l) with (h <$> l). rewrite <- !list_fmap_compose. reflexivity. }
  splits; try reflexivity.
  - intros now l. unfold icrc37_is_approved. apply map_ext. intros a. apply is_approved_late.
  - intros t. unfold token_approvals_entries. cbn [tok_appr late]. rewrite lookup_fmap.
    destruct (tok_appr s !! t) as [m|]; cbn; [apply M|reflexivity].
  - intros a. unfold collection_approvals_entries. cbn [col_appr late]. rewrite lookup_fmap.
    destruct (col_appr s !! akey a) as [m|]; cbn; [apply M|reflexivity].
  - intros l prev tk. unfold approvals_page. rewrite map_map. cbn zeta.
    replace (map (fun x => listed_info (late_entry d x)) l) with (map (late_info d) (map listed_info l)) by (rewrite map_map; reflexivity).
    set (l1 := map listed_info l).
    assert (S : merge_sort newer (map (late_info d) l1) = map (late_info d) (merge_sort newer l1)).
    { apply PropertiesRename.merge_sort_map. intros x y. unfold newer. cbn. lia. }
    rewrite S. set (l2 := merge_sort newer l1).
    assert (P : forall sp, position_spender sp (map (late_info d) l2) = position_spender sp l2).
    { intros sp. induction l2 as [|x r IH]; [reflexivity|]. cbn. destruct (acc_eqb _ _); [reflexivity|]. rewrite IH. reflexivity. }
    rewrite <- PropertiesRename.take_n_map. f_equal. rewrite skipn_map. destruct prev as [sp|]; [rewrite P|]; reflexivity.
  - intros c k. unfold query_upload_status. change (has_permission (late d s)) with (has_permission s). destruct (has_permission _ _ _); [|reflexivity].
    unfold get_upload_status. cbn [files late]. rewrite lookup_fmap. destruct (files s !! k); reflexivity.
Qed.
Print Assumptions C152_reads.

(** The work that is done at intervals picks the same uploads. *)
Theorem C152_collector d now s :
  (forall k u, files s !! k = Some u -> u_init u + d + day_in_ms < two64) ->
  gc_selected (now + d) (late d s) ≡ₚ gc_selected now s.
Proof.
  intros F. unfold gc_selected. cbn [files late]. rewrite map_to_list_fmap.
  assert (G : Forall (fun kv => u_init (snd kv) + d + day_in_ms < two64) (map_to_list (files s))).
  { apply Forall_forall. intros [k u] I. apply elem_of_map_to_list in I. exact (F k u I). }
  induction G as [|[k u] l B _ IH]; [reflexivity|]. cbn [fmap list_fmap prod_map fst snd]. rewrite !filter_cons. cbn in B |- *.
  unfold add64. rewrite !N.mod_small by lia.
  destruct (decide (now + d < u_init u + d + day_in_ms)), (decide (now < u_init u + day_in_ms)); try lia; cbn; rewrite <- IH; reflexivity.
Qed.
Print Assumptions C152_collector.

(** ** Example *)

(** The history of the example a year later: the same ledger, a year later; bob, approved on token 1, takes it then as well. *)
Definition year : N := 31536000000000000.
Example C152_example :
  fits_all year demo2_h demo0 /\
  reachable (late year demo2) /\
  late year demo2 <> demo2 /\
  fits year (from_ bob 3000000000) demo2 /\
  snd (step (late_env year (from_ bob 3000000000)) (late_op year (OTransferFrom [tfrom alice carol 1])) (late year demo2)) = ABatch [Ok 5].
Proof.
  assert (F : fits_all year demo2_h demo0) by (vm_compute; tauto).
  assert (F2 : fits year (from_ bob 3000000000) demo2) by (vm_compute; reflexivity).
  splits; [exact F| | |exact F2|].
  - destruct (C152_history year demo2_h demo0 F) as [E _]. rewrite (C152_install year admin (fun _ => true) demo_args demo0 demo0_init) in E.
    exists admin, (fun _ => true), demo_args, demo0, (map (fun eo => (late_env year (fst eo), late_op year (snd eo))) demo2_h).
    split; [exact demo0_init|symmetry; exact E].
  - intros E. apply (f_equal (fun s => map (fun x => tx_time (snd x)) (log s))) in E. vm_compute in E. discriminate.
  - rewrite (C152_step _ _ _ _ F2). vm_compute. reflexivity.
Qed.
