(** C153: the default subaccount may be written in either way. *)
From Verif Require Import Base ModelPrincipal ModelState ModelIcrc7 ModelIcrc37 ModelManagement ModelLifecycle
  ModelQueries ModelStep ProofsItems ProofsCore ProofsManage ProofsOwner Spec Scenario.
From Verif Require Import PropertiesMirror.
From Verif Require PropertiesRename PropertiesClock.

(** ** Two ways of writing *)

(** An account with the subaccount written out: 32 zero bytes when it was left out. *)
Definition full_sub (b : option bytes) : option bytes := Some (match b with Some x => x | None => default_sub end).
Definition full (a : account) : account := mkAcc (acc_owner a) (full_sub (acc_sub a)).

(** The same for everything that has accounts in it. *)
Definition full_appr (x : approval) : approval := mkAppr (full (a_spender x)) (full (a_from x)) (a_expires x) (a_created x) (a_memo x).
Definition full_entry (x : account * approval) : account * approval := (full (fst x), full_appr (snd x)).
Definition full_apps (m : appmap) : appmap := full_entry <$> m.
Definition full_tok (t : token) : token := mkTok (t_id t) (full (t_owner t)).
Definition full_tx (t : tx) : tx :=
  mkTx (tx_btype t) (tx_time t) (tx_tid t) (option_map full (tx_from t)) (option_map full (tx_to t)) (option_map full (tx_spender t))
    (tx_exp t) (tx_meta t) (tx_memo t) (tx_created t).
Definition full_log (l : list (N * tx)) : list (N * tx) := map (fun x => (fst x, full_tx (snd x))) l.
Definition full_state (s : state) : state :=
  mkSt (cfg s) (perms s) (full_tok <$> tokens s) (by_owner s) (last_id s) (redirs s) (subs s) (full_apps <$> tok_appr s)
    (full_apps <$> col_appr s) (metas s) (windows s) (guards s) (files s) (full_log (log s)) (lcalls s) (pend s) (next_pend s).

Definition full_info (i : approval_info) : approval_info :=
  mkInfo (full (ai_spender i)) (full_sub (ai_from_sub i)) (ai_expires i) (ai_memo i) (ai_created i).
Definition full_transfer (a : transfer_arg) : transfer_arg :=
  mkTransferArg (full (ta_to a)) (ta_tid a) (ta_memo a) (full_sub (ta_from_sub a)) (ta_created a).
Definition full_approve (a : approve_arg) : approve_arg := mkApproveArg (ap_tid a) (full_info (ap_info a)).
Definition full_revoke (a : revoke_arg) : revoke_arg :=
  mkRevokeArg (option_map full (rv_spender a)) (full_sub (rv_from_sub a)) (rv_tid a) (rv_memo a) (rv_created a).
Definition full_revoke_coll (a : revoke_coll_arg) : revoke_coll_arg :=
  mkRevokeCollArg (option_map full (rc_spender a)) (full_sub (rc_from_sub a)) (rc_memo a) (rc_created a).
Definition full_from (a : transfer_from_arg) : transfer_from_arg :=
  mkTransferFromArg (full_sub (tf_spender_sub a)) (full (tf_from a)) (full (tf_to a)) (tf_tid a) (tf_memo a) (tf_created a).
Definition full_mint (r : mint_req) : mint_req := mkMint (full (mr_owner r)) (mr_memo r) (mr_meta r).
Definition full_op (o : op) : op :=
  match o with
  | OTransfer l => OTransfer (map full_transfer l)
  | OApproveTokens l => OApproveTokens (map full_approve l)
  | OApproveCollection l => OApproveCollection (map full_info l)
  | ORevokeTokens l => ORevokeTokens (map full_revoke l)
  | ORevokeCollection l => ORevokeCollection (map full_revoke_coll l)
  | OTransferFrom l => OTransferFrom (map full_from l)
  | OMint l => OMint (map full_mint l)
  | _ => o
  end.

(** Ledgers, and calls, that differ at most in how default subaccounts are written. *)
Definition alike (s s' : state) : Prop := full_state s = full_state s'.
Definition alike_op (o o' : op) : Prop := full_op o = full_op o'.

(** A log that answers alike for blocks that differ at most in that. *)
Definition same_log (e : env) : Prop := forall k t t', full_tx t = full_tx t' -> e_log e k t = e_log e k t'.

(** ** One message *)

Lemma full_idem a : full (full a) = full a.
Proof. reflexivity. Qed.
Lemma akey_full a : akey (full a) = akey a.
Proof. unfold akey, full, full_sub, eff_sub. cbn. destruct (acc_sub a); reflexivity. Qed.
Lemma akey_sub p b : akey (mkAcc p (full_sub b)) = akey (mkAcc p b).
Proof. exact (akey_full (mkAcc p b)). Qed.
Lemma acc_eqb_full a b : acc_eqb (full a) (full b) = acc_eqb a b.
Proof. unfold acc_eqb. rewrite !akey_full. reflexivity. Qed.
Lemma acc_eqb_sub a p b : acc_eqb (full a) (mkAcc p (full_sub b)) = acc_eqb a (mkAcc p b).
Proof. exact (acc_eqb_full a (mkAcc p b)). Qed.
Lemma acc_eqb_sub' a p b : acc_eqb (mkAcc p (full_sub b)) (full a) = acc_eqb (mkAcc p b) a.
Proof. exact (acc_eqb_full (mkAcc p b) a). Qed.
Lemma acc_eqb_anon a : acc_eqb (full a) anonymous_account = acc_eqb a anonymous_account.
Proof. unfold acc_eqb. rewrite akey_full. reflexivity. Qed.
Lemma opt_idem (o : option account) : option_map full (option_map full o) = option_map full o.
Proof. destruct o; reflexivity. Qed.
Lemma full_tx_idem t : full_tx (full_tx t) = full_tx t.
Proof. unfold full_tx. cbn. rewrite !opt_idem. reflexivity. Qed.
Lemma full_log_idem l : full_log (full_log l) = full_log l.
Proof. unfold full_log. rewrite map_map. apply map_ext. intros [i t]. cbn. rewrite full_tx_idem. reflexivity. Qed.
Lemma full_log_app l l' : full_log (l ++ l') = full_log l ++ full_log l'.
Proof. apply map_app. Qed.
Lemma fmap_idem {K : Type} `{Countable K} {A : Type} (f : A -> A) (m : gmap K A) : (forall x : A, f (f x) = f x) -> f <$> (f <$> m) = f <$> m.
Proof. intros E. rewrite <- map_fmap_compose. apply map_fmap_ext. intros i x _. apply E. Qed.
Lemma full_apps_idem m : full_apps (full_apps m) = full_apps m.
Proof. apply fmap_idem. reflexivity. Qed.
Lemma full_state_idem s : full_state (full_state s) = full_state s.
Proof.
  unfold full_state. cbn. rewrite full_log_idem, !(fmap_idem full_apps) by apply full_apps_idem.
  rewrite (fmap_idem full_tok) by reflexivity. reflexivity.
Qed.

Lemma alike_full s : alike (full_state s) s.
Proof. apply full_state_idem. Qed.
Lemma alike_trans s1 s2 s3 : alike s1 s2 -> alike s2 s3 -> alike s1 s3.
Proof. unfold alike. congruence. Qed.
Lemma alike_sym s1 s2 : alike s1 s2 -> alike s2 s1.
Proof. unfold alike. congruence. Qed.

Lemma owner_full s t : owner_of (full_state s) t = option_map full (owner_of s t).
Proof. unfold owner_of. cbn. rewrite lookup_fmap. destruct (tokens s !! t); reflexivity. Qed.
Lemma apps_lookup m k : full_apps m !! k = full_entry <$> m !! k.
Proof. apply lookup_fmap. Qed.
Lemma apps_size m : size (full_apps m) = size m.
Proof. apply map_size_fmap. Qed.
Lemma apps_insert sp a m : full_apps (appmap_insert (full sp) (full_appr a) (full_apps m)) = full_apps (appmap_insert sp a m).
Proof.
  unfold appmap_insert. rewrite akey_full, apps_lookup. destruct (m !! akey sp) as [[k b]|]; cbn; unfold full_apps;
    rewrite !fmap_insert, (fmap_idem full_entry) by reflexivity; reflexivity.
Qed.
Lemma apps_revoke sp m : full_apps (revoke_from (option_map full sp) (full_apps m)) = full_apps (revoke_from sp m).
Proof.
  destruct sp as [sp|]; cbn; [|reflexivity]. rewrite akey_full. unfold full_apps. rewrite !fmap_delete, (fmap_idem full_entry) by reflexivity. reflexivity.
Qed.
Lemma apps_default m : default ∅ (full_apps <$> m) = full_apps (default ∅ m).
Proof. destruct m; cbn; [reflexivity|]. symmetry. apply fmap_empty. Qed.

Lemma guard_full now t s :
  guard_sliding_window now t (full_state s) = (full_state (fst (guard_sliding_window now t s)), snd (guard_sliding_window now t s)).
Proof. unfold guard_sliding_window. cbn. destruct (_ <=? _); reflexivity. Qed.

(** Two executions of a call that come to the same. *)
Definition same {B} (F' F : option (state * B)) : Prop :=
  match F', F with
  | None, None => True
  | Some (s', r'), Some (s, r) => alike s' s /\ r' = r
  | _, _ => False
  end.
Lemma same_trans {B} (F G H : option (state * B)) : same F G -> same G H -> same F H.
Proof.
  unfold same. destruct F as [[]|], G as [[]|], H as [[]|]; try tauto. intros [A ->] [A' ->]. split; [eapply alike_trans; eassumption|reflexivity].
Qed.
Lemma same_sym {B} (F G : option (state * B)) : same F G -> same G F.
Proof. unfold same. destruct F as [[]|], G as [[]|]; try tauto. intros [A ->]. split; [apply alike_sym, A|reflexivity]. Qed.

Lemma items_same {A} (F : state -> A -> option (state * res N)) (h : A -> A) :
  (forall s a, same (F (full_state s) (h a)) (F s a)) ->
  (forall a, h (h a) = h a) ->
  forall l s s', alike s s' -> same (run_items F s' (map h l)) (run_items F s l).
Proof.
  intros E H. assert (E2 : forall s s' a, alike s s' -> same (F s' (h a)) (F s a)).
  { intros s s' a A'. apply (same_trans _ (F (full_state s') (h (h a)))); [apply same_sym, E|]. rewrite H.
    rewrite <- A'. apply E. }
  intros l. induction l as [|a l IH]; intros s s' AL; [split; [apply alike_sym, AL|reflexivity]|]. cbn.
  pose proof (E2 s s' a AL) as X. unfold same in X. destruct (F s' (h a)) as [[s1' b']|], (F s a) as [[s1 b]|]; try tauto.
  destruct X as [X1 ->]. pose proof (IH s1 s1' (alike_sym _ _ X1)) as Y. unfold same in Y |- *.
  destruct (run_items F s1' (map h l)) as [[s2' bs']|], (run_items F s1 l) as [[s2 bs]|]; try tauto.
  destruct Y as [Y1 ->]. split; [exact Y1|reflexivity].
Qed.

Lemma refl_state {B} s (r : B) : same (Some (full_state s, r)) (Some (s, r)).
Proof. split; [apply alike_full|reflexivity]. Qed.

Ltac done := apply refl_state.
Ltac go_g := match goal with
  | |- context [guard_sliding_window ?n ?t (full_state ?s)] => rewrite (guard_full n t s);
      destruct (guard_sliding_window n t s) as [? []]; cbn [fst snd negb]
  end.
Lemma same_intro {B} s s' (r : B) : alike s' s -> same (Some (s', r)) (Some (s, r)).
Proof. intros A. split; [exact A|reflexivity]. Qed.

(** Assignments to the fields with accounts in them. *)
Lemma alike_tok_appr v v' s s' : full_apps <$> v' = full_apps <$> v -> alike s' s -> alike (set_tok_appr v' s') (set_tok_appr v s).
Proof. unfold alike. intros V A. change (full_state (set_tok_appr ?x ?y)) with (set_tok_appr (full_apps <$> x) (full_state y)). rewrite V, A. reflexivity. Qed.
Lemma alike_col_appr v v' s s' : full_apps <$> v' = full_apps <$> v -> alike s' s -> alike (set_col_appr v' s') (set_col_appr v s).
Proof. unfold alike. intros V A. change (full_state (set_col_appr ?x ?y)) with (set_col_appr (full_apps <$> x) (full_state y)). rewrite V, A. reflexivity. Qed.
Lemma alike_tokens v v' s s' : full_tok <$> v' = full_tok <$> v -> alike s' s -> alike (set_tokens v' s') (set_tokens v s).
Proof. unfold alike. intros V A. change (full_state (set_tokens ?x ?y)) with (set_tokens (full_tok <$> x) (full_state y)). rewrite V, A. reflexivity. Qed.
Lemma alike_by_owner v s s' : alike s' s -> alike (set_by_owner v s') (set_by_owner v s).
Proof. unfold alike. intros A. change (full_state (set_by_owner ?x ?y)) with (set_by_owner x (full_state y)). rewrite A. reflexivity. Qed.
Lemma get_tok_appr s s' : alike s' s -> full_apps <$> tok_appr s' = full_apps <$> tok_appr s.
Proof. intros A. apply (f_equal tok_appr) in A. exact A. Qed.
Lemma get_col_appr s s' : alike s' s -> full_apps <$> col_appr s' = full_apps <$> col_appr s.
Proof. intros A. apply (f_equal col_appr) in A. exact A. Qed.
Lemma get_tokens s s' : alike s' s -> full_tok <$> tokens s' = full_tok <$> tokens s.
Proof. intros A. apply (f_equal tokens) in A. exact A. Qed.
Lemma get_by_owner s s' : alike s' s -> by_owner s' = by_owner s.
Proof. intros A. apply (f_equal by_owner) in A. exact A. Qed.

Lemma alike_move nft to s s' : alike s' s -> alike (move_token (full_tok nft) (full to) s') (move_token nft to s).
Proof.
  intros A. unfold move_token. cbn [by_owner set_tokens t_owner full_tok t_id]. rewrite !akey_full, (get_by_owner _ _ A).
  apply alike_by_owner, alike_tokens; [|exact A]. rewrite !fmap_insert, (get_tokens _ _ A). reflexivity.
Qed.

Lemma alike_insert (m m' : option appmap) sp a : full_apps <$> m' = full_apps <$> m ->
  full_apps (appmap_insert (full sp) (full_appr a) (default ∅ m')) = full_apps (appmap_insert sp a (default ∅ m)).
Proof.
  intros E. assert (D : full_apps (default ∅ m') = full_apps (default ∅ m)) by (rewrite <- !apps_default, E; reflexivity).
  rewrite <- (apps_insert (full sp) (full_appr a) (default ∅ m')), D. apply (apps_insert sp a).
Qed.

Section alike.
Context (e : env) (L : same_log e).

Lemma add_alike t t' s s' : full_tx t' = full_tx t -> alike s' s ->
  alike (fst (add_transaction e t' s')) (fst (add_transaction e t s)) /\ snd (add_transaction e t' s') = snd (add_transaction e t s).
Proof.
  intros T A. unfold add_transaction.
  assert (K : lcalls s' = lcalls s) by (apply (f_equal lcalls) in A; exact A). rewrite K, (L (lcalls s) t' t T).
  assert (A1 : alike (set_lcalls (lcalls s + 1) s') (set_lcalls (lcalls s + 1) s)).
  { unfold alike in *. change (full_state (set_lcalls ?n ?x)) with (set_lcalls n (full_state x)). rewrite A. reflexivity. }
  destruct (e_log e (lcalls s) t); cbn [fst snd]; (split; [|reflexivity]); try exact A1.
  unfold alike in *. change (full_state (set_log ?l ?x)) with (set_log (full_log l) (full_state x)). rewrite A1. f_equal.
  cbn [log set_lcalls]. rewrite !full_log_app. f_equal; [|cbn; rewrite T; reflexivity]. apply (f_equal log) in A. exact A.
Qed.


Ltac log_ :=
  match goal with
  | |- context [add_transaction ?e ?x (full_state ?s)] =>
    match goal with |- context [add_transaction e ?t s] =>
      let A := fresh "A" in let E := fresh "E" in
      assert (E : full_tx x = full_tx t) by (unfold full_tx; cbn [tx_btype tx_time tx_tid tx_from tx_to tx_spender tx_exp tx_meta tx_memo tx_created
          transfer_tx approve_tx revoke_tx transfer_from_tx burn_tx update_meta_tx]; cbn [option_map]; rewrite ?opt_idem; reflexivity);
      destruct (add_alike t x s (full_state s) E (alike_full s)) as [A ?H];
      clear E;
      destruct (add_transaction e x (full_state s)) as [?z ?ans], (add_transaction e t s) as [?z ?ans];
      cbn [fst snd] in *; subst; 
      match goal with ans : logans |- _ => destruct ans end; cbn iota beta; try (apply same_intro; exact A)
    end
  end.

Lemma transfer_alike s a : same (transfer_nft e (full_state s) (full_transfer a)) (transfer_nft e s a).
Proof.
  unfold transfer_nft. cbn [ta_tid ta_to ta_memo ta_created full_transfer]. go_g; [|done].
  cbn [tokens full_state]. rewrite lookup_fmap. destruct (tokens s0 !! ta_tid a) as [nft|]; cbn [fmap option_fmap option_map]; [|done].
  fold (full_state s0). change (check_memo (full_state s0) (ta_memo a)) with (check_memo s0 (ta_memo a)).
  destruct (check_memo s0 (ta_memo a)) as [[]|]; [|done|exact Logic.I].
  cbn [t_owner full_tok acc_owner full]. fold (full (t_owner nft)) (full (ta_to a)). rewrite acc_eqb_full.
  destruct (negb _ || _ || _); [done|]. cbn [cfg full_state]. fold (full_state s0).
  destruct (u64_setting _ _) as [drift|]; [|exact Logic.I]. destruct (_ <? _); [done|].
  destruct (u64_setting _ _) as [win|]; [|exact Logic.I]. destruct (_ <? _); [done|].
  log_. apply same_intro, alike_move, A.
Qed.

Lemma approve_alike s a : same (approve_token e (full_state s) (full_approve a)) (approve_token e s a).
Proof.
  unfold approve_token. cbn [ap_tid ap_info full_approve]. go_g; [|done].
  cbn [ai_created full_info]. change (verify_approval_timing (full_state s0)) with (verify_approval_timing s0).
  destruct (verify_approval_timing _ _ _); try done.
  rewrite owner_full. destruct (owner_of s0 (ap_tid a)) as [ow|]; cbn [option_map]; [|done].
  cbn [ai_from_sub ai_spender full_info]. rewrite acc_eqb_sub, acc_eqb_anon. destruct (negb _); [done|]. destruct (acc_eqb _ anonymous_account); [done|].
  cbn [cfg full_state tok_appr]. rewrite lookup_fmap.
  assert (X : match full_apps <$> tok_appr s0 !! ap_tid a with Some m => usize_limit (c_max_appr (cfg s0)) <=? N.of_nat (size m) | None => false end =
    match tok_appr s0 !! ap_tid a with Some m => usize_limit (c_max_appr (cfg s0)) <=? N.of_nat (size m) | None => false end)
    by (destruct (tok_appr s0 !! ap_tid a); cbn; [rewrite apps_size|]; reflexivity).
  cbn [full_state cfg] in X |- *. rewrite X. clear X. fold (full_state s0).
  destruct (match tok_appr s0 !! ap_tid a with Some _ => _ | None => _ end); [done|].
  log_. destruct (_ <? _); [|exact Logic.I]. apply same_intro, alike_tok_appr; [|exact A].
  rewrite !fmap_insert, (get_tok_appr _ _ A). f_equal.
  apply (alike_insert _ _ (ai_spender (ap_info a)) (new_approval (ap_info a) (mkAcc (e_caller e) (ai_from_sub (ap_info a))) (e_now e))).
  rewrite <- !lookup_fmap, (get_tok_appr _ _ A). reflexivity.
Qed.

Lemma has_nfts_full s p : has_nfts (full_state s) p = has_nfts s p.
Proof. unfold has_nfts. cbn [tokens full_state]. apply PropertiesClock.existsb_fmap. reflexivity. Qed.

Lemma approve_coll_alike s i : same (approve_collection e (full_state s) (full_info i)) (approve_collection e s i).
Proof.
  unfold approve_collection. go_g; [|done].
  cbn [ai_created full_info]. change (verify_approval_timing (full_state s0)) with (verify_approval_timing s0).
  destruct (verify_approval_timing _ _ _); try done.
  cbn [ai_from_sub ai_spender full_info]. rewrite acc_eqb_anon. destruct (acc_eqb _ anonymous_account); [done|].
  rewrite has_nfts_full. destruct (negb _); [done|].
  rewrite akey_sub. cbn [cfg full_state col_appr]. rewrite lookup_fmap.
  set (k := akey (mkAcc (e_caller e) (ai_from_sub i))).
  assert (X : match full_apps <$> col_appr s0 !! k with Some m => usize_limit (c_max_appr (cfg s0)) <=? N.of_nat (size m) | None => false end =
    match col_appr s0 !! k with Some m => usize_limit (c_max_appr (cfg s0)) <=? N.of_nat (size m) | None => false end)
    by (destruct (col_appr s0 !! k); cbn; [rewrite apps_size|]; reflexivity).
  cbn [full_state cfg] in X |- *. rewrite X. clear X. fold (full_state s0).
  destruct (match col_appr s0 !! k with Some _ => _ | None => _ end); [done|].
  log_. apply same_intro, alike_col_appr; [|exact A].
  rewrite !fmap_insert, (get_col_appr _ _ A). f_equal.
  apply (alike_insert _ _ (ai_spender i) (new_approval i (mkAcc (e_caller e) (ai_from_sub i)) (e_now e))).
  rewrite <- !lookup_fmap, (get_col_appr _ _ A). reflexivity.
Qed.

Lemma revoke_alike s a : same (revoke_token_approvals e (full_state s) (full_revoke a)) (revoke_token_approvals e s a).
Proof.
  unfold revoke_token_approvals. cbn [rv_spender rv_from_sub rv_tid rv_memo rv_created full_revoke].
  change (verify_opt_timing (full_state s)) with (verify_opt_timing s). destruct (verify_opt_timing _ _ _); try done.
  rewrite owner_full. destruct (owner_of s (rv_tid a)) as [ow|]; cbn [option_map]; [|done].
  rewrite acc_eqb_sub. destruct (negb _); [done|]. cbn [tok_appr full_state]. rewrite lookup_fmap.
  destruct (tok_appr s !! rv_tid a) as [m|]; cbn [fmap option_fmap option_map]; [|done]. fold (full_state s).
  log_. apply same_intro, alike_tok_appr; [|exact A]. rewrite !fmap_insert, (get_tok_appr _ _ A), apps_revoke. reflexivity.
Qed.

Lemma revoke_coll_alike s a : same (revoke_collection_approvals e (full_state s) (full_revoke_coll a)) (revoke_collection_approvals e s a).
Proof.
  unfold revoke_collection_approvals. cbn [rc_spender rc_from_sub rc_memo rc_created full_revoke_coll]. go_g; [|done].
  change (verify_opt_timing (full_state s0)) with (verify_opt_timing s0). destruct (verify_opt_timing _ _ _); try done.
  cbn [col_appr full_state]. rewrite lookup_fmap.
  destruct (col_appr s0 !! _) as [m|]; cbn [fmap option_fmap option_map]; [|done]. fold (full_state s0).
  log_. apply same_intro, alike_col_appr; [|exact A]. rewrite !fmap_insert, (get_col_appr _ _ A), apps_revoke. reflexivity.
Qed.

Lemma has_valid_full now m k : has_valid now (full_apps <$> m) k = has_valid now m k.
Proof. destruct m as [m|]; cbn; [|reflexivity]. rewrite apps_lookup. destruct (m !! k) as [[x ap]|]; reflexivity. Qed.

Lemma drop_tok_full now k sp s :
  set_tok_appr (drop_expired now k sp (full_apps <$> tok_appr s)) (full_state s) = full_state (set_tok_appr (drop_expired now k sp (tok_appr s)) s).
Proof.
  unfold drop_expired. rewrite lookup_fmap. destruct (tok_appr s !! k) as [m|]; cbn [fmap option_fmap option_map]; [|reflexivity].
  rewrite apps_lookup. destruct (m !! sp) as [[x ap]|]; cbn [fmap option_fmap option_map full_entry fst snd]; [|reflexivity].
  change (unexpired now (full_appr ap)) with (unexpired now ap). destruct (unexpired now ap); [reflexivity|].
  unfold full_state, set_tok_appr. cbn. f_equal. unfold full_apps. rewrite fmap_insert, fmap_delete. reflexivity.
Qed.
Lemma drop_col_full now k sp s :
  set_col_appr (drop_expired now k sp (full_apps <$> col_appr s)) (full_state s) = full_state (set_col_appr (drop_expired now k sp (col_appr s)) s).
Proof.
  unfold drop_expired. rewrite lookup_fmap. destruct (col_appr s !! k) as [m|]; cbn [fmap option_fmap option_map]; [|reflexivity].
  rewrite apps_lookup. destruct (m !! sp) as [[x ap]|]; cbn [fmap option_fmap option_map full_entry fst snd]; [|reflexivity].
  change (unexpired now (full_appr ap)) with (unexpired now ap). destruct (unexpired now ap); [reflexivity|].
  unfold full_state, set_col_appr. cbn. f_equal. unfold full_apps. rewrite fmap_insert, fmap_delete. reflexivity.
Qed.

Lemma transfer_from_alike s a : same (transfer_from e (full_state s) (full_from a)) (transfer_from e s a).
Proof.
  unfold transfer_from. cbn [tf_spender_sub tf_from tf_to tf_tid tf_memo tf_created full_from]. go_g; [|done].
  change (verify_opt_timing (full_state s0)) with (verify_opt_timing s0). destruct (verify_opt_timing _ _ _); try done.
  cbn [tokens full_state]. rewrite lookup_fmap. destruct (tokens s0 !! tf_tid a) as [nft|]; cbn [fmap option_fmap option_map]; [|done].
  fold (full_state s0). rewrite acc_eqb_full, acc_eqb_anon. destruct (acc_eqb (tf_from a) _); [done|]. destruct (acc_eqb _ anonymous_account); [done|].
  rewrite !check_token_approval_eq, !check_collection_approval_eq. cbn [t_owner full_tok].
  rewrite !acc_eqb_full, acc_eqb_sub', !akey_sub, !akey_full.
  change (tok_appr (full_state s0)) with (full_apps <$> tok_appr s0). rewrite lookup_fmap, has_valid_full, drop_tok_full.
  set (s1 := set_tok_appr (drop_expired _ _ _ _) s0).
  change (col_appr (full_state s1)) with (full_apps <$> col_appr s1). rewrite lookup_fmap, has_valid_full, drop_col_full.
  set (s2 := set_col_appr (drop_expired _ _ _ _) s1). destruct (negb _ || _); [done|].
  log_. pose proof (alike_move nft (tf_to a) _ _ A) as M. apply same_intro, alike_col_appr.
  - cbn [col_appr set_tok_appr]. rewrite !fmap_delete, (get_col_appr _ _ M). reflexivity.
  - apply alike_tok_appr; [|exact M]. rewrite !fmap_delete, (get_tok_appr _ _ M). reflexivity.
Qed.

(** Management calls. *)
Lemma guard_new_full p s : guard_new p (full_state s) = full_state <$> guard_new p s.
Proof. unfold guard_new. cbn [guards full_state]. destruct (_ <=? _)%nat; reflexivity. Qed.

Lemma drop_alike p s s' : alike s s' -> alike (guard_drop p s) (guard_drop p s').
Proof.
  unfold alike. intros H. change (full_state (guard_drop p ?x)) with (guard_drop p (full_state x)). rewrite H. reflexivity.
Qed.

Lemma lock_alike {A} s (body' body : state -> option (state * mres A)) :
  (forall s, same (body' (full_state s)) (body s)) -> same (with_lock e (full_state s) body') (with_lock e s body).
Proof.
  intros B. unfold with_lock. rewrite guard_new_full.
  destruct (guard_new (e_caller e) s) as [s1|]; cbn [fmap option_fmap option_map]; [|done].
  pose proof (B s1) as X. unfold same in X. destruct (body' (full_state s1)) as [[s2' r']|], (body s1) as [[s2 r]|]; try tauto.
  destruct X as [X ->]. split; [apply drop_alike, X|reflexivity].
Qed.

Lemma permission_alike {A} q m s (b' b : option (state * mres A)) :
  same b' b -> same (with_permission q m e (full_state s) b') (with_permission q m e s b).
Proof.
  intros B. unfold with_permission. change (has_permission (full_state s)) with (has_permission s).
  destruct (has_permission _ _ _); [exact B|done].
Qed.

Lemma check_memos_full s l : check_memos (full_state s) (map full_mint l) = check_memos s l.
Proof.
  induction l as [|r l IH]; [reflexivity|]. cbn. change (check_memo (full_state s)) with (check_memo s).
  destruct (check_memo s (mr_memo r)) as [[]|]; auto.
Qed.
Lemma mint_metadata_full id l m : mint_metadata id (map full_mint l) m = mint_metadata id l m.
Proof. revert id m. induction l as [|r l IH]; intros id m; [reflexivity|]. cbn. destruct (add_metadata _ _ _); [apply IH|reflexivity]. Qed.

Lemma mint_log_alike id l s s' : alike s' s ->
  alike (fst (mint_log e id (map full_mint l) s')) (fst (mint_log e id l s)) /\
  snd (mint_log e id (map full_mint l) s') = snd (mint_log e id l s).
Proof.
  revert id s s'. induction l as [|r l IH]; intros id s s' A; [split; [exact A|reflexivity]|]. cbn [map mint_log].
  destruct (add_alike (mint_tx (e_now e) id r) (mint_tx (e_now e) id (full_mint r)) s s' eq_refl A) as [A1 E].
  destruct (add_transaction e (mint_tx (e_now e) id (full_mint r)) s') as [s1' a'], (add_transaction e (mint_tx (e_now e) id r) s) as [s1 a].
  cbn [fst snd] in A1, E. subst a'. destruct a; cbn [fst snd]; try (split; [exact A1|reflexivity]). apply IH. exact A1.
Qed.
Lemma mint_insert_alike id l s s' : alike s' s -> alike (mint_insert id (map full_mint l) s') (mint_insert id l s).
Proof.
  revert id s s'. induction l as [|r l IH]; intros id s s' A; [exact A|]. cbn [map mint_insert]. apply IH.
  cbn [by_owner set_tokens mr_owner full_mint]. rewrite akey_full, (get_by_owner _ _ A).
  apply alike_by_owner, alike_tokens; [|exact A]. rewrite !fmap_insert, (get_tokens _ _ A). reflexivity.
Qed.

Lemma mint_alike s l : same (mint e (full_state s) (map full_mint l)) (mint e s l).
Proof.
  unfold mint. apply permission_alike, lock_alike. intros s1. unfold mint_body. cbn [cfg last_id tokens metas full_state].
  unfold nlen. rewrite map_length, map_size_fmap. fold (full_state s1). destruct (_ <? _); [done|]. destruct (_ <? _); [done|].
  rewrite check_memos_full. destruct (check_memos s1 l) as [[]|]; [|done|exact Logic.I].
  rewrite mint_metadata_full. destruct (mint_metadata _ _ _) as [m|]; [|exact Logic.I].
  change (set_metas m (full_state s1)) with (full_state (set_metas m s1)).
  destruct (mint_log_alike (last_id s1) l (set_metas m s1) (full_state (set_metas m s1)) (alike_full _)) as [A1 E].
  destruct (mint_log e _ (map full_mint l) _) as [s2' o'], (mint_log e _ l _) as [s2 o]. cbn [fst snd] in A1, E. subst o'.
  destruct o as [msg|]; (split; [|reflexivity]); [exact A1|]. apply mint_insert_alike.
  unfold alike in *. change (full_state (set_last_id ?n ?x)) with (set_last_id n (full_state x)). rewrite A1. reflexivity.
Qed.

Lemma update_alike s t kvs : same (update_nft_metadata e (full_state s) t kvs) (update_nft_metadata e s t kvs).
Proof.
  unfold update_nft_metadata. apply permission_alike, lock_alike. intros s1. unfold update_nft_metadata_body.
  cbn [tokens metas full_state]. rewrite lookup_fmap. fold (full_state s1).
  destruct (tokens s1 !! t) as [tok|] eqn:T; cbn [fmap option_fmap option_map]; [|done].
  cbn [t_id full_tok]. destruct (replace_metadata _ _ _) as [m|]; [|exact Logic.I]. cbn [metas set_metas].
  change (set_metas m (full_state s1)) with (full_state (set_metas m s1)).
  log_. apply same_intro, alike_tokens; [|exact A]. rewrite !fmap_insert, (get_tokens _ _ A). reflexivity.
Qed.

Lemma burn_alike s t : same (burn_nft e (full_state s) t) (burn_nft e s t).
Proof.
  unfold burn_nft. apply lock_alike. intros s1. unfold burn_body.
  cbn [tokens full_state]. rewrite lookup_fmap. fold (full_state s1).
  destruct (tokens s1 !! t) as [tok|] eqn:T; cbn [fmap option_fmap option_map]; [|done].
  cbn [t_owner full_tok acc_owner full]. fold (full (t_owner tok)). destruct (negb _); [done|].
  log_. apply same_intro, alike_tokens; [|exact A]. rewrite !fmap_delete, (get_tokens _ _ A). reflexivity.
Qed.

(** The other management calls and the uploads do not look at accounts. *)
Lemma same_refl {B} (x : option (state * B)) : same x x.
Proof. destruct x as [[]|]; [split; reflexivity|exact Logic.I]. Qed.

Lemma entry_full s (F : state -> state * (err + pending)) :
  (forall s, F (full_state s) = (full_state (fst (F s)), snd (F s))) ->
  upload_entry e (full_state s) F = (full_state (fst (upload_entry e s F)), snd (upload_entry e s F)).
Proof.
  intros E. unfold upload_entry. change (has_permission (full_state s)) with (has_permission s). rewrite guard_new_full.
  destruct (has_permission _ _ _); [|reflexivity].
  destruct (guard_new (e_caller e) s) as [s1|]; cbn [fmap option_fmap option_map]; [|reflexivity].
  rewrite E. destruct (F s1) as [s2 [x|p]]; reflexivity.
Qed.

Lemma resume_full now id r s : resume now id r (full_state s) = (full_state (fst (resume now id r s)), snd (resume now id r s)).
Proof.
  unfold resume. cbn [pend full_state]. destruct (pend s !! id) as [p|]; [|reflexivity]. destruct p, r; reflexivity.
Qed.

Definition agree (x' x : state * answer) : Prop := alike (fst x') (fst x) /\ snd x' = snd x.

Lemma batch_agree s F' F : same F' F -> agree (ans_batch (full_state s) F') (ans_batch s F).
Proof. unfold same. destruct F' as [[]|], F as [[]|]; try tauto. intros [A ->]. split; [exact A|reflexivity]. intros _. split; [apply alike_full|reflexivity]. Qed.
Lemma unit_agree s F' F : same F' F -> agree (ans_unit (full_state s) F') (ans_unit s F).
Proof.
  unfold same. destruct F' as [[? r']|], F as [[? r]|]; try tauto.
  - intros [A ->]. destruct r; (split; [exact A|reflexivity]).
  - intros _. split; [apply alike_full|reflexivity].
Qed.
Lemma nat_agree s F' F : same F' F -> agree (ans_nat (full_state s) F') (ans_nat s F).
Proof.
  unfold same. destruct F' as [[? r']|], F as [[? r]|]; try tauto.
  - intros [A ->]. destruct r; (split; [exact A|reflexivity]).
  - intros _. split; [apply alike_full|reflexivity].
Qed.
Lemma upload_agree (x : state * ures) : agree (ans_upload (full_state (fst x), snd x)) (ans_upload x).
Proof. destruct x as [s [[]|]]; (split; [apply alike_full|reflexivity]). Qed.

Lemma step_full o s : agree (step e (full_op o) (full_state s)) (step e o s).
Proof.
  destruct o; cbn [full_op step].
  - apply batch_agree. unfold icrc7_transfer. destruct args as [|a l]; [done|].
    cbn [map]. cbn [cfg full_state]. fold (full_state s). destruct (usize_try _) as [mx|]; [|exact Logic.I].
    unfold nlen. cbn [length]. rewrite map_length. destruct (_ && _); [done|]. destruct (bool_decide _); [done|].
    pose proof (PropertiesRename.take_n_map full_transfer mx (a :: l)) as X. cbn [map] in X. rewrite X.
    apply items_same; [apply transfer_alike|reflexivity|apply alike_sym, alike_full].
  - apply batch_agree. apply items_same; [apply approve_alike|reflexivity|apply alike_sym, alike_full].
  - apply batch_agree. apply items_same; [apply approve_coll_alike|reflexivity|apply alike_sym, alike_full].
  - unfold icrc37_revoke_token_approvals. destruct args as [|a l]; [split; [apply alike_full|reflexivity]|].
    cbn [map rv_tid full_revoke]. go_g; [|split; [apply alike_full|reflexivity]].
    cbn [cfg full_state]. fold (full_state s0).
    pose proof (PropertiesRename.take_n_map full_revoke (usize_limit (c_max_revoke (cfg s0))) (a :: l)) as X. cbn [map] in X. rewrite X. clear X.
    pose proof (items_same (revoke_token_approvals e) full_revoke revoke_alike) as X.
    specialize (X ltac:(intros [[] ? ? ? ?]; reflexivity) (take_n (usize_limit (c_max_revoke (cfg s0))) (a :: l)) s0 (full_state s0) (alike_sym _ _ (alike_full s0))).
    unfold same in X. destruct (run_items _ (full_state s0) _) as [[]|], (run_items _ s0 _) as [[]|]; try tauto.
    + destruct X as [A ->]. split; [exact A|reflexivity].
    + split; [apply alike_full|reflexivity].
  - apply batch_agree. unfold icrc37_revoke_collection_approvals. cbn [cfg full_state]. fold (full_state s).
    rewrite PropertiesRename.take_n_map. apply items_same; [apply revoke_coll_alike|intros [[] ? ? ?]; reflexivity|apply alike_sym, alike_full].
  - apply batch_agree. apply items_same; [apply transfer_from_alike|reflexivity|apply alike_sym, alike_full].
  - apply unit_agree. unfold update_collection_metadata. apply permission_alike, lock_alike. intros s1.
    apply same_intro. exact (alike_full (set_cfg (apply_update u (cfg s1)) s1)).
  - apply nat_agree, mint_alike.
  - apply nat_agree, update_alike.
  - apply unit_agree, burn_alike.
  - apply unit_agree. unfold grant_permission. apply permission_alike, lock_alike. intros s1.
    apply same_intro. exact (alike_full (set_perms (perm_grant p perm (perms s1)) s1)).
  - apply unit_agree. unfold revoke_permission. apply permission_alike, lock_alike. intros s1.
    apply same_intro. exact (alike_full (set_perms (perm_revoke p perm (perms s1)) s1)).
  - unfold init_upload. rewrite entry_full; [apply upload_agree|]. intros s1. unfold init_upload_first.
    change (contains_path (full_state s1)) with (contains_path s1). destruct (contains_path _ _); [reflexivity|]. destruct (_ <? _); reflexivity.
  - unfold store_chunk. rewrite entry_full; [apply upload_agree|]. intros s1. unfold store_chunk_first. cbn [files subs full_state].
    destruct (files s1 !! path) as [u|]; [|reflexivity]. destruct (u_state u); try reflexivity; destruct (bool_decide _); reflexivity.
  - unfold finalize_upload. rewrite entry_full; [apply upload_agree|]. intros s1. unfold finalize_upload_first. cbn [files subs full_state].
    destruct (files s1 !! path) as [u|]; [|reflexivity]. destruct (u_state u); try reflexivity; destruct (bool_decide _); reflexivity.
  - unfold cancel_upload. rewrite entry_full; [apply upload_agree|]. intros s1. unfold cancel_upload_first. cbn [files subs full_state].
    destruct (files s1 !! path) as [u|]; [|reflexivity]. destruct (u_state u); try reflexivity; destruct (bool_decide _); reflexivity.
  - rewrite resume_full. destruct (resume (e_now e) id r s) as [? [[]|]]; (split; [apply alike_full|reflexivity]).
  - split; [|reflexivity]. exact (alike_full (upgrade s)).
Qed.

End alike.

Lemma full_op_idem o : full_op (full_op o) = full_op o.
Proof.
  assert (M : forall A (h : A -> A) (l : list A), (forall x, h (h x) = h x) -> map h (map h l) = map h l)
    by (intros A h l E; rewrite map_map; apply map_ext, E).
  destruct o; cbn; try reflexivity; rewrite M; try reflexivity; intros [[]]; reflexivity.
Qed.

(** Calls that differ at most in how default subaccounts are written, on ledgers that differ at most in that, get the same
    answer and leave ledgers that differ at most in that; provided that the log, which is external, answers alike too. *)
Theorem C153_step e o o' s s' :
  same_log e -> alike_op o o' -> alike s s' ->
  alike (fst (step e o s)) (fst (step e o' s')) /\ snd (step e o s) = snd (step e o' s').
Proof.
  intros L O A. destruct (step_full e L o s) as [A1 E1], (step_full e L o' s') as [A2 E2].
  unfold alike_op in O. unfold alike in A. rewrite O, A in A1, E1. split; [|congruence].
  apply (alike_trans _ _ _ (alike_sym _ _ A1) A2).
Qed.
Print Assumptions C153_step.

(** So it is for whole histories. *)
Theorem C153_history h h' s s' :
  Forall2 (fun x x' => fst x = fst x' /\ same_log (fst x) /\ alike_op (snd x) (snd x')) h h' -> alike s s' ->
  alike (run h s) (run h' s') /\ map ev_ans (trace h s) = map ev_ans (trace h' s').
Proof.
  intros F. revert s s'. induction F as [|[e o] [e' o'] h h' (E & L & O) _ IH]; intros s s' A; [split; [exact A|reflexivity]|].
  cbn in E, L, O. subst e'. cbn [run trace]. destruct (C153_step e o o' s s' L O A) as [A1 E1].
  destruct (step e o s) as [s1 a], (step e o' s') as [s1' a']. cbn [fst snd] in A1, E1. subst a'.
  destruct (IH s1 s1' A1) as [A2 E2]. split; [exact A2|]. cbn. rewrite E2. reflexivity.
Qed.
Print Assumptions C153_history.

(** ** Reads *)

Lemma page_ids_full s : map fst (map_to_list (full_tok <$> tokens s)) ≡ₚ map fst (map_to_list (tokens s)).
Proof. rewrite map_to_list_fmap. change (map fst ?l) with (fst <$> l). rewrite <- list_fmap_compose. reflexivity. Qed.

Lemma account_ids_full s a : tokens_ids_of_account (full_state s) (full a) ≡ₚ tokens_ids_of_account s a.
Proof.
  unfold tokens_ids_of_account. cbn [tokens full_state]. rewrite map_to_list_fmap.
  induction (map_to_list (tokens s)) as [|[k t] l IH]; [reflexivity|]. cbn [fmap list_fmap]. rewrite !filter_cons. cbn [prod_map fst snd full_tok t_owner id].
  rewrite !akey_full. destruct (decide (akey (t_owner t) = akey a)) as [D|D]; [|exact IH]. cbn. constructor. exact IH.
Qed.

Lemma entries_full (m : appmap) : map snd (map_to_list (full_apps m)) ≡ₚ map full_entry (map snd (map_to_list m)).
Proof. unfold full_apps. rewrite map_to_list_fmap. change (map ?h ?l) with (h <$> l). rewrite <- !list_fmap_compose. reflexivity. Qed.

(** What is read of ledgers that are alike is alike, and is the same where no account is told. *)
Theorem C153_reads s s' :
  alike s s' ->
  (forall ids, option_map (map (option_map full)) (icrc7_owner_of s ids) = option_map (map (option_map full)) (icrc7_owner_of s' ids)) /\
  (forall l l', map full l = map full l' -> icrc7_balance_of s l = icrc7_balance_of s' l') /\
  (forall prev tk, icrc7_tokens s prev tk = icrc7_tokens s' prev tk) /\
  (forall a a' prev tk, full a = full a' -> icrc7_tokens_of s a prev tk = icrc7_tokens_of s' a' prev tk) /\
  (forall ids, icrc7_token_metadata s ids = icrc7_token_metadata s' ids) /\
  icrc7_collection_metadata s = icrc7_collection_metadata s' /\
  (forall t, map full_entry (token_approvals_entries s t) ≡ₚ map full_entry (token_approvals_entries s' t)) /\
  (forall a a', full a = full a' ->
     map full_entry (collection_approvals_entries s a) ≡ₚ map full_entry (collection_approvals_entries s' a')) /\
  (forall l l' prev prev' tk, map full_entry l = map full_entry l' -> option_map full prev = option_map full prev' ->
     map full_info (approvals_page l prev tk) = map full_info (approvals_page l' prev' tk)).
Proof.
  intros A. splits.
  - assert (G : forall s ids, icrc7_owner_of (full_state s) ids = option_map (map (option_map full)) (icrc7_owner_of s ids)).
    { intros z ids. unfold icrc7_owner_of, batch_query. change (query_limit (full_state z)) with (query_limit z).
      destruct (_ <? _); [reflexivity|]. cbn. f_equal. rewrite map_map. apply map_ext. intros t. apply owner_full. }
    intros ids. rewrite <- (G s), <- (G s'), A. reflexivity.
  - assert (G : forall s l, icrc7_balance_of (full_state s) (map full l) = icrc7_balance_of s l).
    { intros z l. unfold icrc7_balance_of, batch_query. change (query_limit (full_state z)) with (query_limit z). unfold nlen. rewrite map_length.
      destruct (_ <? _); [reflexivity|]. f_equal. rewrite map_map. apply map_ext. intros a. unfold tokens_balance_of. cbn [by_owner full_state].
      rewrite akey_full. reflexivity. }
    intros l l' E. rewrite <- (G s l), <- (G s' l'), E, A. reflexivity.
  - assert (G : forall s prev tk, icrc7_tokens (full_state s) prev tk = icrc7_tokens s prev tk).
    { intros z prev tk. unfold icrc7_tokens. change (take_ok (full_state z) tk) with (take_ok z tk). destruct (take_ok z tk); [|reflexivity].
      f_equal. unfold page_of. change (page_size (full_state z) tk) with (page_size z tk). cbn [tokens full_state].
      rewrite (PropertiesRename.sort_perm _ _ (page_ids_full z)). reflexivity. }
    intros prev tk. rewrite <- (G s), <- (G s'), A. reflexivity.
  - assert (G : forall s a prev tk, icrc7_tokens_of (full_state s) (full a) prev tk = icrc7_tokens_of s a prev tk).
    { intros z a prev tk. unfold icrc7_tokens_of. change (take_ok (full_state z) tk) with (take_ok z tk). destruct (take_ok z tk); [|reflexivity].
      f_equal. unfold page_of. change (page_size (full_state z) tk) with (page_size z tk).
      rewrite (PropertiesRename.sort_perm _ _ (account_ids_full z a)). reflexivity. }
    intros a a' prev tk E. rewrite <- (G s a), <- (G s' a'), E, A. reflexivity.
  - assert (G : forall s ids, icrc7_token_metadata (full_state s) ids = icrc7_token_metadata s ids).
    { intros z ids. unfold icrc7_token_metadata, batch_query. change (query_limit (full_state z)) with (query_limit z).
      destruct (_ <? _); [reflexivity|]. f_equal. apply map_ext. intros t. cbn [tokens full_state]. rewrite lookup_fmap.
      destruct (tokens z !! t); reflexivity. }
    intros ids. rewrite <- (G s), <- (G s'), A. reflexivity.
  - assert (G : forall s, icrc7_collection_metadata (full_state s) = icrc7_collection_metadata s).
    { intros z. unfold icrc7_collection_metadata, total_supply. cbn [tokens cfg full_state]. rewrite map_size_fmap. reflexivity. }
    rewrite <- (G s), <- (G s'), A. reflexivity.
  - assert (G : forall s t, token_approvals_entries (full_state s) t ≡ₚ map full_entry (token_approvals_entries s t)).
    { intros z t. unfold token_approvals_entries. cbn [tok_appr full_state]. rewrite lookup_fmap.
      destruct (tok_appr z !! t) as [m|]; cbn; [apply entries_full|reflexivity]. }
    intros t. rewrite <- (G s), <- (G s'), A. reflexivity.
  - assert (G : forall s a, collection_approvals_entries (full_state s) (full a) ≡ₚ map full_entry (collection_approvals_entries s a)).
    { intros z a. unfold collection_approvals_entries. cbn [col_appr full_state]. rewrite akey_full, lookup_fmap.
      destruct (col_appr z !! akey a) as [m|]; cbn; [apply entries_full|reflexivity]. }
    intros a a' E. rewrite <- (G s), <- (G s'), E, A. reflexivity.
  - assert (G : forall l prev tk, approvals_page (map full_entry l) (option_map full prev) tk = map full_info (approvals_page l prev tk)).
    { intros l prev tk. unfold approvals_page. rewrite map_map. cbn zeta.
      replace (map (fun x => listed_info (full_entry x)) l) with (map full_info (map listed_info l)) by (rewrite map_map; reflexivity).
      set (l1 := map listed_info l).
      assert (S : merge_sort newer (map full_info l1) = map full_info (merge_sort newer l1))
        by (apply PropertiesRename.merge_sort_map; intros; reflexivity).
      rewrite S. set (l2 := merge_sort newer l1).
      assert (P : forall sp, position_spender (full sp) (map full_info l2) = position_spender sp l2).
      { intros sp. induction l2 as [|x r IH]; [reflexivity|]. cbn. rewrite acc_eqb_full. destruct (acc_eqb _ _); [reflexivity|].
        rewrite IH. reflexivity. }
      rewrite <- PropertiesRename.take_n_map. f_equal. rewrite skipn_map. destruct prev as [sp|]; cbn; [rewrite P|]; reflexivity. }
    intros l l' prev prev' tk E1 E2. rewrite <- (G l), <- (G l'), E1, E2. reflexivity.
Qed.
Print Assumptions C153_reads.

(** [icrc37_is_approved] compares the subaccounts of collection approvals as they were written.  alice approves alice's own
    account for the collection with the subaccount left out; asked with the subaccount left out the answer is yes, with 32 zero
    bytes it is no. *)
Definition self_approved : state := fst (step (from_ alice 3000000000) (OApproveCollection [info alice 3000000000 None]) demo2).
Theorem C153_is_approved_refuted :
  reachable self_approved /\
  full (mkAcc alice None) = full (mkAcc alice (Some default_sub)) /\
  icrc37_is_approved self_approved 1 [mkIsApproved (mkAcc alice None) (Some [7]) 3] = [true] /\
  icrc37_is_approved self_approved 1 [mkIsApproved (mkAcc alice (Some default_sub)) (Some [7]) 3] = [false].
Proof.
  splits; [|reflexivity|vm_compute; reflexivity..].
  apply run_reachable_step. apply demo_reachable.
Qed.
Print Assumptions C153_is_approved_refuted.

(** It is the only reason: otherwise the answers are the same. *)
Theorem C153_is_approved_partial s s' now a a' :
  alike s s' -> full (ia_spender a) = full (ia_spender a') -> full_sub (ia_from_sub a) = full_sub (ia_from_sub a') -> ia_tid a = ia_tid a' ->
  (forall m x, col_appr s !! akey (ia_spender a) = Some m -> x ∈ map snd (map_to_list m) -> akey (fst x) <> akey (ia_spender a)) ->
  is_approved s now a = is_approved s' now a'.
Proof.
  intros A ES EF ET SELF.
  assert (K : akey (ia_spender a) = akey (ia_spender a')) by (rewrite <- akey_full, ES; apply akey_full).
  assert (C : full_apps <$> col_appr s = full_apps <$> col_appr s') by (apply (f_equal col_appr) in A; exact A).
  assert (T : full_apps <$> tok_appr s = full_apps <$> tok_appr s') by (apply (f_equal tok_appr) in A; exact A).
  assert (NC : forall z (b : is_approved_arg), (forall m x, col_appr z !! akey (ia_spender b) = Some m -> x ∈ map snd (map_to_list m) -> akey (fst x) <> akey (ia_spender b)) ->
    existsb (fun kv : acckey * (account * approval) => bool_decide (acc_owner (fst (snd kv)) = acc_owner (ia_spender b)) && bool_decide (acc_sub (fst (snd kv)) = acc_sub (ia_spender b)))
      (map_to_list (default ∅ (col_appr z !! akey (ia_spender b)))) = false).
  { intros z b N. apply not_true_is_false. intros X. apply existsb_exists in X as ([k [x ap]] & I & B).
    apply elem_of_list_In in I. apply andb_true_iff in B as [B1 B2]. apply bool_decide_eq_true in B1, B2. cbn in B1, B2.
    destruct (col_appr z !! akey (ia_spender b)) as [m|] eqn:E; cbn in I; [|rewrite map_to_list_empty in I; inversion I].
    apply (N m (x, ap) eq_refl).
    - apply elem_of_list_In, in_map_iff. exists (k, (x, ap)). split; [reflexivity|]. apply elem_of_list_In, I.
    - unfold akey, eff_sub. cbn. rewrite B1, B2. reflexivity. }
  unfold is_approved. cbn zeta. rewrite (NC s a SELF), (NC s' a').
  2: { intros m x E I. rewrite <- K in E |- *. apply (f_equal (fun z => z !! akey (ia_spender a))) in C. rewrite !lookup_fmap, E in C.
       destruct (col_appr s !! akey (ia_spender a)) as [m0|] eqn:E0; [|discriminate]. injection C as C.
       apply elem_of_list_In, in_map_iff in I as ([k y] & <- & I). apply elem_of_list_In, elem_of_map_to_list in I. cbn.
       apply (f_equal (fun z => z !! k)) in C. rewrite !apps_lookup, I in C. destruct (m0 !! k) as [y0|] eqn:E1; [|discriminate].
       injection C as C1 C2 C3. rewrite <- (akey_full (fst y)). unfold full, full_sub. rewrite <- C1, <- C2.
       intros X. apply (SELF m0 y0 eq_refl).
       - apply elem_of_list_In, in_map_iff. exists (k, y0). split; [reflexivity|]. apply elem_of_list_In, elem_of_map_to_list, E1.
       - rewrite <- (akey_full (fst y0)). exact X. }
  f_equal. f_equal.
  - assert (O : option_map full (owner_of s (ia_tid a)) = option_map full (owner_of s' (ia_tid a))) by (rewrite <- !owner_full, A; reflexivity).
    rewrite <- ET. destruct (owner_of s (ia_tid a)) as [o|], (owner_of s' (ia_tid a)) as [o'|]; try discriminate; [|reflexivity].
    injection O as O1 O2. assert (P : acc_owner (ia_spender a) = acc_owner (ia_spender a')) by (injection K as K1 _; exact K1).
    rewrite <- acc_eqb_sub, <- (acc_eqb_sub o'), EF, P. f_equal. unfold full, full_sub. rewrite O1, O2. reflexivity.
  - rewrite <- ET, <- K. apply (f_equal (fun z => z !! ia_tid a)) in T. rewrite !lookup_fmap in T.
    destruct (tok_appr s !! ia_tid a) as [m|], (tok_appr s' !! ia_tid a) as [m'|]; try discriminate; [|reflexivity].
    injection T as T. apply (f_equal (fun z => z !! akey (ia_spender a))) in T. rewrite !apps_lookup in T.
    destruct (m !! akey (ia_spender a)) as [[x ap]|], (m' !! akey (ia_spender a)) as [[x' ap']|]; try discriminate; [|reflexivity].
    injection T as _ _ _ _ _ _ E _ _. rewrite E. reflexivity.
Qed.
Print Assumptions C153_is_approved_partial.

(** ** Example *)

(** bob's default account written out: the transfer to it leaves a ledger alike, not the same. *)
Example C153_example :
  let e := from_ alice 3000000000 in
  let o := OTransfer [mkTransferArg (mkAcc bob None) 1 None None None] in
  let o' := OTransfer [mkTransferArg (mkAcc bob (Some default_sub)) 1 None None None] in
  same_log e /\ alike_op o o' /\ reachable demo2 /\
  snd (step e o demo2) = ABatch [Ok 5] /\
  owner_of (fst (step e o demo2)) 1 = Some (mkAcc bob None) /\
  owner_of (fst (step e o' demo2)) 1 = Some (mkAcc bob (Some default_sub)) /\
  alike (fst (step e o demo2)) (fst (step e o' demo2)) /\
  alike_op (OTransfer [xfer carol 2]) (OTransfer [xfer carol 2]).
Proof.
  assert (L : same_log (from_ alice 3000000000)) by (intros k t t' _; reflexivity).
  cbv zeta. split; [exact L|]. split; [reflexivity|]. split; [apply demo_reachable|].
  split; [vm_compute; reflexivity|]. split; [vm_compute; reflexivity|]. split; [vm_compute; reflexivity|].
  split; [|reflexivity]. apply C153_step; [exact L|reflexivity|unfold alike; reflexivity].
Qed.
