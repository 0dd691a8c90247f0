(** C151: the program knows no names: whoever is called what, the ledger does the same. *)
From Verif Require Import Base ModelPrincipal ModelState ModelIcrc7 ModelIcrc37 ModelManagement ModelLifecycle
  ModelQueries ModelStep ProofsItems ProofsManage Spec Scenario.

(** ** Renaming *)

(** Accounts, approvals, tokens, blocks, waiting calls and calls under a renaming of principals.  Storage canisters keep their
    names: their text is part of the redirections. *)
Definition ren_acc (f : principal -> principal) (a : account) : account := mkAcc (f (acc_owner a)) (acc_sub a).
Definition ren_key (f : principal -> principal) (k : acckey) : acckey := (f (fst k), snd k).
Definition ren_appr (f : principal -> principal) (x : approval) : approval :=
  mkAppr (ren_acc f (a_spender x)) (ren_acc f (a_from x)) (a_expires x) (a_created x) (a_memo x).
Definition ren_entry (f : principal -> principal) (x : account * approval) : account * approval :=
  (ren_acc f (fst x), ren_appr f (snd x)).
Definition ren_apps (f : principal -> principal) (m : appmap) : appmap := kmap (ren_key f) (ren_entry f <$> m).
Definition ren_tok (f : principal -> principal) (t : token) : token := mkTok (t_id t) (ren_acc f (t_owner t)).
Definition ren_tx (f : principal -> principal) (t : tx) : tx :=
  mkTx (tx_btype t) (tx_time t) (tx_tid t) (ren_acc f <$> tx_from t) (ren_acc f <$> tx_to t) (ren_acc f <$> tx_spender t)
    (tx_exp t) (tx_meta t) (tx_memo t) (tx_created t).
Definition ren_pending (f : principal -> principal) (p : pending) : pending :=
  match p with
  | PInit c path l => PInit (f c) path l
  | PStore c k i x path => PStore (f c) k i x path
  | PFinalize c k i x path => PFinalize (f c) k i x path
  | PCancel c k => PCancel (f c) k
  end.
Definition ren (f : principal -> principal) (s : state) : state :=
  mkSt (cfg s) (kmap f (perms s)) (ren_tok f <$> tokens s) (kmap (ren_key f) (by_owner s)) (last_id s) (redirs s) (subs s)
    (ren_apps f <$> tok_appr s) (kmap (ren_key f) (ren_apps f <$> col_appr s)) (metas s) (windows s) (set_map f (guards s)) (files s)
    (map (fun x => (fst x, ren_tx f (snd x))) (log s)) (lcalls s) (ren_pending f <$> pend s) (next_pend s).

Definition ren_info (f : principal -> principal) (i : approval_info) : approval_info :=
  mkInfo (ren_acc f (ai_spender i)) (ai_from_sub i) (ai_expires i) (ai_memo i) (ai_created i).
Definition ren_op (f : principal -> principal) (o : op) : op :=
  match o with
  | OTransfer l =>
      OTransfer (map (fun a => mkTransferArg (ren_acc f (ta_to a)) (ta_tid a) (ta_memo a) (ta_from_sub a) (ta_created a)) l)
  | OApproveTokens l => OApproveTokens (map (fun a => mkApproveArg (ap_tid a) (ren_info f (ap_info a))) l)
  | OApproveCollection l => OApproveCollection (map (ren_info f) l)
  | ORevokeTokens l =>
      ORevokeTokens (map (fun a => mkRevokeArg (ren_acc f <$> rv_spender a) (rv_from_sub a) (rv_tid a) (rv_memo a) (rv_created a)) l)
  | ORevokeCollection l =>
      ORevokeCollection (map (fun a => mkRevokeCollArg (ren_acc f <$> rc_spender a) (rc_from_sub a) (rc_memo a) (rc_created a)) l)
  | OTransferFrom l =>
      OTransferFrom (map (fun a => mkTransferFromArg (tf_spender_sub a) (ren_acc f (tf_from a)) (ren_acc f (tf_to a)) (tf_tid a)
                                     (tf_memo a) (tf_created a)) l)
  | OMint l => OMint (map (fun r => mkMint (ren_acc f (mr_owner r)) (mr_memo r) (mr_meta r)) l)
  | OGrant p q => OGrant (f p) q
  | ORevokePerm p q => ORevokePerm (f p) q
  | _ => o
  end.

(** A message under a renaming: the log says of a renamed block what it would have said of the block.  [g] undoes [f]. *)
Definition ren_env (f g : principal -> principal) (e : env) : env :=
  mkEnv (f (e_caller e)) (e_now e) (fun k t => e_log e k (ren_tx g t)).

(** A renaming: it can be undone, and the anonymous principal keeps its name. *)
Definition renaming (f g : principal -> principal) : Prop :=
  (forall p, g (f p) = p) /\ (forall p, f (g p) = p) /\ f anonymous = anonymous.

(** ** One message *)

Section rename.
Context (f g : principal -> principal) (R : renaming f g).

Local Instance f_inj : Inj (=) (=) f.
Proof. intros x y E. destruct R as (G & _). rewrite <- (G x), <- (G y), E. reflexivity. Qed.
Local Instance key_inj : Inj (=) (=) (ren_key f).
Proof. intros [p b] [q c]. unfold ren_key. cbn. intros [= E ->]. apply f_inj in E. subst. reflexivity. Qed.

Lemma akey_ren a : akey (ren_acc f a) = ren_key f (akey a).
Proof. reflexivity. Qed.
Lemma akey_caller p sub : akey (mkAcc (f p) sub) = ren_key f (akey (mkAcc p sub)).
Proof. reflexivity. Qed.
Lemma key_iff (a b : acckey) : ren_key f a = ren_key f b <-> a = b.
Proof. split; [apply key_inj|congruence]. Qed.
Lemma f_iff p q : f p = f q <-> p = q.
Proof. split; [apply f_inj|congruence]. Qed.
Lemma acc_eqb_ren a b : acc_eqb (ren_acc f a) (ren_acc f b) = acc_eqb a b.
Proof. unfold acc_eqb. apply bool_decide_ext. rewrite !akey_ren. apply key_iff. Qed.
Lemma anon_ren : ren_acc f anonymous_account = anonymous_account.
Proof. unfold ren_acc, anonymous_account. cbn. destruct R as (_ & _ & ->). reflexivity. Qed.
Lemma acc_eqb_anon a : acc_eqb (ren_acc f a) anonymous_account = acc_eqb a anonymous_account.
Proof. rewrite <- anon_ren at 1. apply acc_eqb_ren. Qed.
Lemma anon_iff p : f p = anonymous <-> p = anonymous.
Proof. destruct R as (_ & _ & A). rewrite <- A at 1. apply f_iff. Qed.
Lemma ren_acc_inv a : ren_acc g (ren_acc f a) = a.
Proof. destruct a. unfold ren_acc. cbn. destruct R as (-> & _). reflexivity. Qed.
Lemma ren_tx_inv t : ren_tx g (ren_tx f t) = t.
Proof.
  destruct t as [? ? ? x y z]. unfold ren_tx. cbn.
  assert (E : forall o : option account, ren_acc g <$> (ren_acc f <$> o) = o) by (intros [a|]; cbn; [rewrite ren_acc_inv|]; reflexivity).
  rewrite !E. reflexivity.
Qed.

Lemma guard_ren now t s :
  guard_sliding_window now t (ren f s) = (ren f (fst (guard_sliding_window now t s)), snd (guard_sliding_window now t s)).
Proof. unfold guard_sliding_window. cbn. destruct (_ <=? _); reflexivity. Qed.

Lemma add_ren e t s :
  add_transaction (ren_env f g e) (ren_tx f t) (ren f s) = (ren f (fst (add_transaction e t s)), snd (add_transaction e t s)).
Proof.
  unfold add_transaction. cbn. rewrite ren_tx_inv. destruct (e_log e (lcalls s) t); try reflexivity.
  cbn. f_equal. unfold ren, set_log, set_lcalls. cbn. f_equal. rewrite map_app. reflexivity.
Qed.

Lemma perm_ren s p q : has_permission (ren f s) (f p) q = has_permission s p q.
Proof. unfold has_permission. cbn. rewrite lookup_kmap by apply _. reflexivity. Qed.

Lemma owner_ren s t : owner_of (ren f s) t = ren_acc f <$> owner_of s t.
Proof. unfold owner_of. cbn. rewrite lookup_fmap. destruct (tokens s !! t); reflexivity. Qed.

Lemma move_ren nft to s : move_token (ren_tok f nft) (ren_acc f to) (ren f s) = ren f (move_token nft to s).
Proof.
  unfold move_token, ren, set_tokens, set_by_owner. cbn. f_equal.
  - rewrite fmap_insert. reflexivity.
  - rewrite !akey_ren, !kmap_insert by apply _. rewrite <- (kmap_insert (ren_key f)) by apply _. rewrite !lookup_kmap by apply _.
    rewrite !kmap_insert by apply _. reflexivity.
Qed.

Lemma kmap_size {A} (m : gmap acckey A) : size (kmap (ren_key f) m : gmap acckey A) = size m.
Proof.
  induction m as [|k x m N IH] using map_ind; [rewrite kmap_empty; reflexivity|].
  rewrite kmap_insert by apply _. rewrite !map_size_insert_None; [rewrite IH; reflexivity|exact N|].
  rewrite lookup_kmap by apply _. exact N.
Qed.
Lemma apps_size m : size (ren_apps f m) = size m.
Proof. unfold ren_apps. rewrite kmap_size. apply map_size_fmap. Qed.
Lemma apps_lookup m k : ren_apps f m !! ren_key f k = ren_entry f <$> m !! k.
Proof. unfold ren_apps. rewrite lookup_kmap by apply _. apply lookup_fmap. Qed.
Lemma apps_delete m k : delete (ren_key f k) (ren_apps f m) = ren_apps f (delete k m).
Proof. unfold ren_apps. rewrite fmap_delete, kmap_delete by apply _. reflexivity. Qed.
Lemma apps_empty : ren_apps f ∅ = ∅.
Proof. unfold ren_apps. rewrite fmap_empty, kmap_empty. reflexivity. Qed.
Lemma apps_insert sp a m : appmap_insert (ren_acc f sp) (ren_appr f a) (ren_apps f m) = ren_apps f (appmap_insert sp a m).
Proof.
  unfold appmap_insert. rewrite akey_ren, apps_lookup. destruct (m !! akey sp) as [[k b]|]; cbn;
    unfold ren_apps; rewrite fmap_insert, kmap_insert by apply _; reflexivity.
Qed.
Lemma apps_revoke sp m : revoke_from (ren_acc f <$> sp) (ren_apps f m) = ren_apps f (revoke_from sp m).
Proof. destruct sp as [sp|]; cbn; [rewrite akey_ren; apply apps_delete|symmetry; apply apps_empty]. Qed.
Lemma apps_default m : default ∅ (ren_apps f <$> m) = ren_apps f (default ∅ m).
Proof. destruct m; cbn; [reflexivity|symmetry; apply apps_empty]. Qed.

Lemma set_tok_appr_ren k m s :
  set_tok_appr (<[k := ren_apps f m]> (ren_apps f <$> tok_appr s)) (ren f s) = ren f (set_tok_appr (<[k := m]> (tok_appr s)) s).
Proof. unfold ren, set_tok_appr. cbn. f_equal. rewrite fmap_insert. reflexivity. Qed.
Lemma set_col_appr_ren k m s :
  set_col_appr (<[ren_key f k := ren_apps f m]> (kmap (ren_key f) (ren_apps f <$> col_appr s))) (ren f s) =
    ren f (set_col_appr (<[k := m]> (col_appr s)) s).
Proof. unfold ren, set_col_appr. cbn. f_equal. rewrite fmap_insert, kmap_insert by apply _. reflexivity. Qed.

Lemma items_ren {A B} (F : state -> A -> option (state * B)) (F' : state -> A -> option (state * B)) (h : A -> A) :
  (forall s a, F' (ren f s) (h a) = match F s a with None => None | Some (s', r) => Some (ren f s', r) end) ->
  forall l s, run_items F' (ren f s) (map h l) = match run_items F s l with None => None | Some (s', r) => Some (ren f s', r) end.
Proof.
  intros E l. induction l as [|a l IH]; intros s; [reflexivity|]. cbn. rewrite E. destruct (F s a) as [[s1 b]|]; [|reflexivity].
  rewrite IH. destruct (run_items F s1 l) as [[s2 bs]|]; reflexivity.
Qed.

Lemma take_n_map {A B} (h : A -> B) n l : take_n n (map h l) = map h (take_n n l).
Proof. unfold take_n, nlen. rewrite map_length. apply firstn_map. Qed.

(** What a call does under the renaming. *)
Definition follows {B} (F' F : option (state * B)) : Prop :=
  F' = match F with None => None | Some (s', r) => Some (ren f s', r) end.

Ltac go_g := match goal with
  | |- context [guard_sliding_window ?n ?t (ren f ?s)] => rewrite (guard_ren n t s);
      destruct (guard_sliding_window n t s) as [? []]; cbn [fst snd negb]
  end.

Lemma transfer_ren e s a :
  follows (transfer_nft (ren_env f g e) (ren f s)
             (mkTransferArg (ren_acc f (ta_to a)) (ta_tid a) (ta_memo a) (ta_from_sub a) (ta_created a))) (transfer_nft e s a).
Proof.
  unfold follows, transfer_nft. cbn [ta_tid ta_to ta_memo ta_created e_now e_caller ren_env]. go_g; [|reflexivity].
  cbn [tokens ren]. rewrite lookup_fmap. destruct (tokens s0 !! ta_tid a) as [nft|]; cbn [fmap option_fmap option_map]; [|reflexivity].
  change (check_memo (ren f s0) (ta_memo a)) with (check_memo s0 (ta_memo a)). destruct (check_memo s0 (ta_memo a)) as [[]|]; try reflexivity.
  cbn [t_owner ren_tok acc_owner ren_acc].
  assert (E1 : bool_decide (f (acc_owner (t_owner nft)) = f (e_caller e)) = bool_decide (acc_owner (t_owner nft) = e_caller e))
    by (apply bool_decide_ext, f_iff).
  assert (E2 : bool_decide (f (acc_owner (ta_to a)) = anonymous) = bool_decide (acc_owner (ta_to a) = anonymous))
    by (apply bool_decide_ext, anon_iff).
  fold (ren_acc f (t_owner nft)) (ren_acc f (ta_to a)). rewrite E1, E2, acc_eqb_ren.
  destruct (negb _ || _ || _); [reflexivity|]. cbn [cfg ren].
  destruct (u64_setting _ _) as [drift|]; [|reflexivity]. destruct (_ <? _); [reflexivity|].
  destruct (u64_setting _ _) as [win|]; [|reflexivity]. destruct (_ <? _); [reflexivity|].
  change (transfer_tx _ _ _ _) with (ren_tx f (transfer_tx (e_now e) nft a (default (e_now e) (ta_created a)))) at 1.
  fold (ren_env f g e). rewrite add_ren. destruct (add_transaction e _ s0) as [s2 []]; cbn [fst snd]; try reflexivity.
  rewrite move_ren. reflexivity.
Qed.

Ltac tx_is t := match goal with
  | |- context [add_transaction (ren_env f g ?e) ?x _] => change x with (ren_tx f t)
  end.

Lemma approve_ren e s a :
  follows (approve_token (ren_env f g e) (ren f s) (mkApproveArg (ap_tid a) (ren_info f (ap_info a)))) (approve_token e s a).
Proof.
  unfold follows, approve_token. cbn [ap_tid ap_info e_now e_caller ren_env]. go_g; [|reflexivity].
  cbn [ai_created ren_info]. change (verify_approval_timing (ren f s0)) with (verify_approval_timing s0).
  destruct (verify_approval_timing _ _ _); try reflexivity.
  rewrite owner_ren. destruct (owner_of s0 (ap_tid a)) as [ow|]; cbn [fmap option_fmap option_map]; [|reflexivity].
  cbn [ai_from_sub ai_spender ren_info]. change (mkAcc (f (e_caller e)) (ai_from_sub (ap_info a))) with (ren_acc f (mkAcc (e_caller e) (ai_from_sub (ap_info a)))).
  rewrite acc_eqb_ren, acc_eqb_anon. destruct (negb _); [reflexivity|]. destruct (acc_eqb _ anonymous_account); [reflexivity|].
  cbn [cfg ren tok_appr]. rewrite lookup_fmap.
  assert (X : match ren_apps f <$> tok_appr s0 !! ap_tid a with Some m => usize_limit (c_max_appr (cfg s0)) <=? N.of_nat (size m) | None => false end =
    match tok_appr s0 !! ap_tid a with Some m => usize_limit (c_max_appr (cfg s0)) <=? N.of_nat (size m) | None => false end)
    by (destruct (tok_appr s0 !! ap_tid a); cbn; [rewrite apps_size|]; reflexivity).
  cbn [ren cfg] in X |- *. rewrite X. clear X. destruct (match tok_appr s0 !! ap_tid a with Some _ => _ | None => _ end); [reflexivity|].
  fold (ren_env f g e). fold (ren f s0).
  tx_is (approve_tx "37approve" (e_now e) (Some (ap_tid a)) (mkAcc (e_caller e) (ai_from_sub (ap_info a))) (ap_info a)).
  rewrite add_ren. destruct (add_transaction e _ s0) as [s2 []]; cbn [fst snd]; try reflexivity.
  destruct (_ <? _); [|reflexivity]. cbn [tok_appr ren]. rewrite lookup_fmap, apps_default.
  change (new_approval (ren_info f (ap_info a)) (ren_acc f (mkAcc (e_caller e) (ai_from_sub (ap_info a)))) (e_now e))
    with (ren_appr f (new_approval (ap_info a) (mkAcc (e_caller e) (ai_from_sub (ap_info a))) (e_now e))).
  rewrite apps_insert. fold (ren f s2). rewrite set_tok_appr_ren. reflexivity.
Qed.

Lemma has_nfts_ren s p : has_nfts (ren f s) (f p) = has_nfts s p.
Proof.
  unfold has_nfts. apply eq_true_iff_eq. rewrite !existsb_exists. split.
  - intros ([k t] & I & B). apply elem_of_list_In, elem_of_map_to_list in I. cbn [tokens ren] in I. rewrite lookup_fmap in I.
    destruct (tokens s !! k) as [t'|] eqn:E; [|discriminate]. injection I as <-. apply bool_decide_eq_true in B. cbn in B. apply f_inj in B.
    exists (k, t'). split; [apply elem_of_list_In, elem_of_map_to_list; exact E|apply bool_decide_eq_true; exact B].
  - intros ([k t] & I & B). apply elem_of_list_In, elem_of_map_to_list in I. apply bool_decide_eq_true in B. cbn in B.
    exists (k, ren_tok f t). split; [apply elem_of_list_In, elem_of_map_to_list|apply bool_decide_eq_true; cbn; rewrite B; reflexivity].
    cbn [tokens ren]. rewrite lookup_fmap, I. reflexivity.
Qed.

Lemma approve_coll_ren e s i :
  follows (approve_collection (ren_env f g e) (ren f s) (ren_info f i)) (approve_collection e s i).
Proof.
  unfold follows, approve_collection. cbn [e_now e_caller ren_env]. go_g; [|reflexivity].
  cbn [ai_created ren_info]. change (verify_approval_timing (ren f s0)) with (verify_approval_timing s0).
  destruct (verify_approval_timing _ _ _); try reflexivity.
  cbn [ai_from_sub ai_spender ren_info]. rewrite acc_eqb_anon. destruct (acc_eqb _ anonymous_account); [reflexivity|].
  rewrite has_nfts_ren. destruct (negb _); [reflexivity|].
  rewrite akey_caller. cbn [cfg ren col_appr]. rewrite lookup_kmap, lookup_fmap by apply _.
  set (k := akey (mkAcc (e_caller e) (ai_from_sub i))).
  assert (X : match ren_apps f <$> col_appr s0 !! k with Some m => usize_limit (c_max_appr (cfg s0)) <=? N.of_nat (size m) | None => false end =
    match col_appr s0 !! k with Some m => usize_limit (c_max_appr (cfg s0)) <=? N.of_nat (size m) | None => false end)
    by (destruct (col_appr s0 !! k); cbn; [rewrite apps_size|]; reflexivity).
  cbn [ren cfg] in X |- *. rewrite X. clear X. destruct (match col_appr s0 !! k with Some _ => _ | None => _ end); [reflexivity|].
  fold (ren_env f g e). fold (ren f s0).
  tx_is (approve_tx "37approve_coll" (e_now e) None (mkAcc (e_caller e) (ai_from_sub i)) i).
  rewrite add_ren. destruct (add_transaction e _ s0) as [s2 []]; cbn [fst snd]; try reflexivity.
  cbn [col_appr ren]. rewrite lookup_kmap, lookup_fmap, apps_default by apply _.
  change (new_approval (ren_info f i) (mkAcc (f (e_caller e)) (ai_from_sub i)) (e_now e))
    with (ren_appr f (new_approval i (mkAcc (e_caller e) (ai_from_sub i)) (e_now e))).
  rewrite apps_insert. fold (ren f s2). rewrite set_col_appr_ren. reflexivity.
Qed.

Lemma revoke_ren e s a :
  follows (revoke_token_approvals (ren_env f g e) (ren f s)
    (mkRevokeArg (ren_acc f <$> rv_spender a) (rv_from_sub a) (rv_tid a) (rv_memo a) (rv_created a))) (revoke_token_approvals e s a).
Proof.
  unfold follows, revoke_token_approvals. cbn [rv_spender rv_from_sub rv_tid rv_memo rv_created e_now e_caller ren_env].
  change (verify_opt_timing (ren f s)) with (verify_opt_timing s). destruct (verify_opt_timing _ _ _); try reflexivity.
  rewrite owner_ren. destruct (owner_of s (rv_tid a)) as [ow|]; cbn [fmap option_fmap option_map]; [|reflexivity].
  change (mkAcc (f (e_caller e)) (rv_from_sub a)) with (ren_acc f (mkAcc (e_caller e) (rv_from_sub a))).
  rewrite acc_eqb_ren. destruct (negb _); [reflexivity|]. cbn [tok_appr ren]. rewrite lookup_fmap.
  destruct (tok_appr s !! rv_tid a) as [m|]; cbn [fmap option_fmap option_map]; [|reflexivity].
  fold (ren_env f g e). fold (ren f s).
  tx_is (revoke_tx "37revoke" (e_now e) (Some (rv_tid a)) (mkAcc (e_caller e) (rv_from_sub a)) (rv_spender a) (rv_memo a) (rv_created a)).
  rewrite add_ren. destruct (add_transaction e _ s) as [s2 []]; cbn [fst snd]; try reflexivity.
  cbn [tok_appr ren]. fold (ren f s2).
  change (option_map (ren_acc f) (rv_spender a)) with (ren_acc f <$> rv_spender a). rewrite apps_revoke, set_tok_appr_ren. reflexivity.
Qed.

Lemma revoke_coll_ren e s a :
  follows (revoke_collection_approvals (ren_env f g e) (ren f s)
    (mkRevokeCollArg (ren_acc f <$> rc_spender a) (rc_from_sub a) (rc_memo a) (rc_created a))) (revoke_collection_approvals e s a).
Proof.
  unfold follows, revoke_collection_approvals. cbn [rc_spender rc_from_sub rc_memo rc_created e_now e_caller ren_env]. go_g; [|reflexivity].
  change (verify_opt_timing (ren f s0)) with (verify_opt_timing s0). destruct (verify_opt_timing _ _ _); try reflexivity.
  rewrite akey_caller. cbn [col_appr ren]. rewrite lookup_kmap, lookup_fmap by apply _.
  destruct (col_appr s0 !! _) as [m|]; cbn [fmap option_fmap option_map]; [|reflexivity].
  fold (ren_env f g e). fold (ren f s0).
  tx_is (revoke_tx "37revoke_coll" (e_now e) None (mkAcc (e_caller e) None) (rc_spender a) (rc_memo a) (rc_created a)).
  rewrite add_ren. destruct (add_transaction e _ s0) as [s2 []]; cbn [fst snd]; try reflexivity.
  cbn [col_appr ren]. fold (ren f s2).
  change (option_map (ren_acc f) (rc_spender a)) with (ren_acc f <$> rc_spender a). rewrite apps_revoke, set_col_appr_ren. reflexivity.
Qed.

Lemma has_valid_ren now m k : has_valid now (ren_apps f <$> m) (ren_key f k) = has_valid now m k.
Proof.
  destruct m as [m|]; cbn; [|reflexivity]. rewrite apps_lookup. destruct (m !! k) as [[x ap]|]; reflexivity.
Qed.

Lemma drop_tok_ren now k sp s :
  set_tok_appr (drop_expired now k (ren_key f sp) (ren_apps f <$> tok_appr s)) (ren f s) =
    ren f (set_tok_appr (drop_expired now k sp (tok_appr s)) s).
Proof.
  unfold drop_expired. rewrite lookup_fmap. destruct (tok_appr s !! k) as [m|]; cbn [fmap option_fmap option_map]; [|reflexivity].
  rewrite apps_lookup. destruct (m !! sp) as [[x ap]|]; cbn [fmap option_fmap option_map ren_entry fst snd]; [|reflexivity].
  change (unexpired now (ren_appr f ap)) with (unexpired now ap). destruct (unexpired now ap); [reflexivity|].
  rewrite apps_delete, set_tok_appr_ren. reflexivity.
Qed.
Lemma drop_col_ren now k sp s :
  set_col_appr (drop_expired now (ren_key f k) (ren_key f sp) (kmap (ren_key f) (ren_apps f <$> col_appr s))) (ren f s) =
    ren f (set_col_appr (drop_expired now k sp (col_appr s)) s).
Proof.
  unfold drop_expired. rewrite lookup_kmap, lookup_fmap by apply _.
  destruct (col_appr s !! k) as [m|]; cbn [fmap option_fmap option_map]; [|reflexivity].
  rewrite apps_lookup. destruct (m !! sp) as [[x ap]|]; cbn [fmap option_fmap option_map ren_entry fst snd]; [|reflexivity].
  change (unexpired now (ren_appr f ap)) with (unexpired now ap). destruct (unexpired now ap); [reflexivity|].
  rewrite apps_delete, set_col_appr_ren. reflexivity.
Qed.

Lemma transfer_from_ren e s a :
  follows (transfer_from (ren_env f g e) (ren f s)
    (mkTransferFromArg (tf_spender_sub a) (ren_acc f (tf_from a)) (ren_acc f (tf_to a)) (tf_tid a) (tf_memo a) (tf_created a)))
    (transfer_from e s a).
Proof.
  unfold follows, transfer_from. cbn [tf_spender_sub tf_from tf_to tf_tid tf_memo tf_created e_now e_caller ren_env]. go_g; [|reflexivity].
  change (verify_opt_timing (ren f s0)) with (verify_opt_timing s0). destruct (verify_opt_timing _ _ _); try reflexivity.
  cbn [tokens ren]. rewrite lookup_fmap. destruct (tokens s0 !! tf_tid a) as [nft|]; cbn [fmap option_fmap option_map]; [|reflexivity].
  rewrite acc_eqb_ren, acc_eqb_anon. destruct (acc_eqb (tf_from a) _); [reflexivity|]. destruct (acc_eqb _ anonymous_account); [reflexivity|].
  fold (ren_env f g e). fold (ren f s0). rewrite !check_token_approval_eq, !check_collection_approval_eq. cbn [t_owner ren_tok].
  change (mkAcc (f (e_caller e)) (tf_spender_sub a)) with (ren_acc f (mkAcc (e_caller e) (tf_spender_sub a))).
  rewrite !akey_ren, !acc_eqb_ren. change (tok_appr (ren f s0)) with (ren_apps f <$> tok_appr s0).
  rewrite lookup_fmap, has_valid_ren, drop_tok_ren.
  set (s1 := set_tok_appr (drop_expired _ _ _ _) s0).
  change (col_appr (ren f s1)) with (kmap (ren_key f) (ren_apps f <$> col_appr s1) : gmap acckey appmap).
  rewrite lookup_kmap, lookup_fmap, has_valid_ren, drop_col_ren by apply _.
  set (s2 := set_col_appr (drop_expired _ _ _ _) s1).
  destruct (negb _ || _); [reflexivity|].
  tx_is (transfer_from_tx (e_now e) a (mkAcc (e_caller e) (tf_spender_sub a))).
  rewrite add_ren. destruct (add_transaction e _ s2) as [s4 []]; cbn [fst snd]; try reflexivity.
  rewrite move_ren. f_equal. f_equal. set (s5 := move_token nft (tf_to a) s4).
  unfold ren, set_tok_appr, set_col_appr. cbn. f_equal.
  - rewrite fmap_delete. reflexivity.
  - rewrite fmap_delete, kmap_delete by apply _. reflexivity.
Qed.

(** Management calls. *)
Lemma guard_new_ren p s : guard_new (f p) (ren f s) = ren f <$> guard_new p s.
Proof.
  rewrite !guard_new_spec. cbn [guards ren].
  destruct (decide (guards s = ∅)) as [E|E], (decide (set_map f (guards s) = (∅ : gset principal))) as [E'|E']; try reflexivity.
  - cbn. f_equal. unfold ren, set_guards. cbn. f_equal. rewrite set_map_singleton_L. reflexivity.
  - destruct E'. rewrite E. apply set_map_empty.
  - destruct E. apply leibniz_equiv. intros x. split; [|intros []%not_elem_of_empty]. intros X.
    assert (Y : f x ∈ (set_map f (guards s) : gset principal)) by (apply elem_of_map; eauto). rewrite E' in Y. destruct (not_elem_of_empty _ Y).
Qed.

Lemma guard_drop_ren p s : guard_drop (f p) (ren f s) = ren f (guard_drop p s).
Proof.
  unfold guard_drop, ren, set_guards. cbn. f_equal. apply leibniz_equiv. intros x. rewrite elem_of_difference, !elem_of_map, elem_of_singleton.
  setoid_rewrite elem_of_difference. setoid_rewrite elem_of_singleton. split.
  - intros [(y & -> & H) N]. exists y. split; [reflexivity|]. split; [exact H|congruence].
  - intros (y & -> & H & N). split; [eauto|]. intros E%f_inj. contradiction.
Qed.

Lemma lock_ren {A} e s (body' body : state -> option (state * mres A)) :
  (forall s, follows (body' (ren f s)) (body s)) ->
  follows (with_lock (ren_env f g e) (ren f s) body') (with_lock e s body).
Proof.
  intros B. unfold follows, with_lock. cbn [e_caller ren_env]. rewrite guard_new_ren.
  destruct (guard_new (e_caller e) s) as [s1|]; cbn [fmap option_fmap option_map]; [|reflexivity].
  rewrite (B s1). destruct (body s1) as [[s2 r]|]; [|reflexivity]. rewrite guard_drop_ren. reflexivity.
Qed.

Lemma permission_ren {A} q m e s (b' b : option (state * mres A)) :
  follows b' b -> follows (with_permission q m (ren_env f g e) (ren f s) b') (with_permission q m e s b).
Proof. intros B. unfold follows, with_permission. cbn [e_caller ren_env]. rewrite perm_ren. destruct (has_permission _ _ _); [exact B|reflexivity]. Qed.

Definition ren_mint (r : mint_req) : mint_req := mkMint (ren_acc f (mr_owner r)) (mr_memo r) (mr_meta r).

Lemma check_memos_ren s l : check_memos (ren f s) (map ren_mint l) = check_memos s l.
Proof.
  induction l as [|r l IH]; [reflexivity|]. cbn. change (check_memo (ren f s)) with (check_memo s).
  destruct (check_memo s (mr_memo r)) as [[]|]; auto.
Qed.
Lemma mint_metadata_ren id l m : mint_metadata id (map ren_mint l) m = mint_metadata id l m.
Proof. revert id m. induction l as [|r l IH]; intros id m; [reflexivity|]. cbn. destruct (add_metadata _ _ _); [apply IH|reflexivity]. Qed.
Lemma mint_log_ren e id l s :
  mint_log (ren_env f g e) id (map ren_mint l) (ren f s) = (ren f (fst (mint_log e id l s)), snd (mint_log e id l s)).
Proof.
  revert id s. induction l as [|r l IH]; intros id s; [reflexivity|]. cbn [map mint_log].
  tx_is (mint_tx (e_now e) id r). rewrite add_ren. destruct (add_transaction e _ s) as [s1 []]; cbn [fst snd]; try reflexivity. apply IH.
Qed.
Lemma mint_insert_ren id l s : mint_insert id (map ren_mint l) (ren f s) = ren f (mint_insert id l s).
Proof.
  revert id s. induction l as [|r l IH]; intros id s; [reflexivity|]. cbn [map mint_insert]. rewrite <- IH. f_equal.
  unfold ren, set_tokens, set_by_owner. cbn. f_equal.
  - rewrite fmap_insert. reflexivity.
  - rewrite akey_ren, kmap_insert, lookup_kmap by apply _. reflexivity.
Qed.

Lemma mint_ren e s l : follows (mint (ren_env f g e) (ren f s) (map ren_mint l)) (mint e s l).
Proof.
  unfold mint. apply permission_ren, lock_ren. intros s1. unfold follows, mint_body. cbn [cfg last_id tokens metas ren].
  unfold nlen. rewrite map_length, map_size_fmap. destruct (_ <? _); [reflexivity|]. destruct (_ <? _); [reflexivity|].
  fold (ren f s1). rewrite check_memos_ren. destruct (check_memos s1 l) as [[]|]; try reflexivity.
  rewrite mint_metadata_ren. destruct (mint_metadata _ _ _) as [m|]; [|reflexivity].
  change (set_metas m (ren f s1)) with (ren f (set_metas m s1)). rewrite mint_log_ren.
  destruct (mint_log e _ l _) as [s2 [msg|]]; cbn [fst snd]; [reflexivity|].
  change (set_last_id (last_id s1 + N.of_nat (length l)) (ren f s2)) with (ren f (set_last_id (last_id s1 + N.of_nat (length l)) s2)).
  rewrite mint_insert_ren. reflexivity.
Qed.

Lemma update_ren e s t kvs : follows (update_nft_metadata (ren_env f g e) (ren f s) t kvs) (update_nft_metadata e s t kvs).
Proof.
  unfold update_nft_metadata. apply permission_ren, lock_ren. intros s1. unfold follows, update_nft_metadata_body.
  cbn [tokens metas ren]. rewrite lookup_fmap. destruct (tokens s1 !! t) as [tok|] eqn:T; cbn [fmap option_fmap option_map]; [|reflexivity].
  cbn [t_id ren_tok]. destruct (replace_metadata _ _ _) as [m|]; [|reflexivity]. fold (ren f s1). cbn [metas set_metas].
  change (set_metas m (ren f s1)) with (ren f (set_metas m s1)).
  tx_is (update_meta_tx e t (meta_value t (metas s1)) (meta_value t m)).
  rewrite add_ren. destruct (add_transaction e _ _) as [s2 []]; cbn [fst snd]; try reflexivity.
  cbn [tokens ren]. f_equal. f_equal. unfold ren, set_tokens. cbn. f_equal. rewrite fmap_insert. reflexivity.
Qed.

Lemma burn_ren e s t : follows (burn_nft (ren_env f g e) (ren f s) t) (burn_nft e s t).
Proof.
  unfold burn_nft. apply lock_ren. intros s1. unfold follows, burn_body.
  cbn [tokens ren e_caller e_now ren_env]. rewrite lookup_fmap. destruct (tokens s1 !! t) as [tok|] eqn:T; cbn [fmap option_fmap option_map]; [|reflexivity].
  cbn [t_owner ren_tok acc_owner ren_acc].
  replace (bool_decide (f (e_caller e) = f (acc_owner (t_owner tok)))) with (bool_decide (e_caller e = acc_owner (t_owner tok)))
    by (apply bool_decide_ext; symmetry; apply f_iff).
  destruct (negb _); [reflexivity|]. fold (ren_env f g e) (ren f s1).
  tx_is (burn_tx (e_now e) t tok).
  rewrite add_ren. destruct (add_transaction e _ _) as [s2 []]; cbn [fst snd]; try reflexivity.
  cbn [tokens ren]. f_equal. f_equal. unfold ren, set_tokens. cbn. f_equal. rewrite fmap_delete. reflexivity.
Qed.

Lemma grant_ren e s p q : follows (grant_permission (ren_env f g e) (ren f s) (f p) q) (grant_permission e s p q).
Proof.
  unfold grant_permission. apply permission_ren, lock_ren. intros s1. unfold follows. f_equal. f_equal. unfold ren, set_perms, perm_grant. cbn. f_equal.
  rewrite kmap_insert, lookup_kmap by apply _. reflexivity.
Qed.
Lemma revoke_perm_ren e s p q : follows (revoke_permission (ren_env f g e) (ren f s) (f p) q) (revoke_permission e s p q).
Proof.
  unfold revoke_permission. apply permission_ren, lock_ren. intros s1. unfold follows. f_equal. f_equal. unfold ren, set_perms, perm_revoke. cbn. f_equal.
  rewrite lookup_kmap by apply _. destruct (perms s1 !! p); [rewrite kmap_insert by apply _|]; reflexivity.
Qed.
Lemma collection_ren e s u : follows (update_collection_metadata (ren_env f g e) (ren f s) u) (update_collection_metadata e s u).
Proof. unfold update_collection_metadata. apply permission_ren, lock_ren. intros s1. reflexivity. Qed.

(** Uploads. *)
Lemma entry_ren e s (F' F : state -> state * (err + pending)) :
  (forall s, F' (ren f s) = (ren f (fst (F s)), match snd (F s) with inl x => inl x | inr p => inr (ren_pending f p) end)) ->
  upload_entry (ren_env f g e) (ren f s) F' = (ren f (fst (upload_entry e s F)), snd (upload_entry e s F)).
Proof.
  intros E. unfold upload_entry. cbn [e_caller ren_env]. rewrite perm_ren, guard_new_ren. destruct (has_permission _ _ _); [|reflexivity].
  destruct (guard_new (e_caller e) s) as [s1|]; cbn [fmap option_fmap option_map]; [|reflexivity].
  rewrite E. destruct (F s1) as [s2 [x|p]]; cbn [fst snd].
  - rewrite guard_drop_ren. reflexivity.
  - f_equal. unfold ren, set_next_pend, set_pend. cbn. f_equal. rewrite fmap_insert. reflexivity.
Qed.

Lemma continue_ren now p r s :
  continue now (ren_pending f p) r (ren f s) = (ren f (fst (continue now p r s)), snd (continue now p r s)).
Proof. destruct p, r; reflexivity. Qed.

Lemma resume_ren now id r s : resume now id r (ren f s) = (ren f (fst (resume now id r s)), snd (resume now id r s)).
Proof.
  unfold resume. cbn [pend ren]. rewrite lookup_fmap. destruct (pend s !! id) as [p|]; cbn [fmap option_fmap option_map]; [|reflexivity].
  fold (ren f s). rewrite continue_ren. destruct (continue now p r s) as [s1 a]; cbn [fst snd].
  assert (C : pending_caller (ren_pending f p) = f (pending_caller p)) by (destruct p; reflexivity). rewrite C, guard_drop_ren.
  f_equal. unfold ren, set_pend. cbn. f_equal. rewrite fmap_delete. reflexivity.
Qed.

(** ** The theorem *)

Lemma step_ren e o s : step (ren_env f g e) (ren_op f o) (ren f s) = (ren f (fst (step e o s)), snd (step e o s)).
Proof.
  destruct o; cbn [ren_op step].
  - assert (E : follows (icrc7_transfer (ren_env f g e) (ren f s)
      (map (fun a => mkTransferArg (ren_acc f (ta_to a)) (ta_tid a) (ta_memo a) (ta_from_sub a) (ta_created a)) args))
      (icrc7_transfer e s args)).
    { unfold follows, icrc7_transfer. destruct args as [|a l]; [reflexivity|].
      cbn [map]. cbn [cfg ren e_caller ren_env]. destruct (usize_try _) as [mx|]; [|reflexivity].
      unfold nlen. cbn [length]. rewrite map_length. destruct (_ && _); [reflexivity|].
      replace (bool_decide (f (e_caller e) = anonymous)) with (bool_decide (e_caller e = anonymous))
        by (apply bool_decide_ext; symmetry; apply anon_iff).
      destruct (bool_decide _); [reflexivity|]. fold (ren_env f g e) (ren f s).
      pose proof (take_n_map (fun a => mkTransferArg (ren_acc f (ta_to a)) (ta_tid a) (ta_memo a) (ta_from_sub a) (ta_created a)) mx (a :: l)) as T.
      cbn [map] in T. rewrite T. apply items_ren. intros; apply transfer_ren. }
    rewrite E. destruct (icrc7_transfer e s args) as [[]|]; reflexivity.
  - unfold icrc37_approve_tokens. rewrite (items_ren (approve_token e)) by (intros; apply approve_ren).
    destruct (run_items _ _ _) as [[]|]; reflexivity.
  - unfold icrc37_approve_collection. rewrite (items_ren (approve_collection e)) by (intros; apply approve_coll_ren).
    destruct (run_items _ _ _) as [[]|]; reflexivity.
  - unfold icrc37_revoke_token_approvals. destruct args as [|a l]; [reflexivity|]. cbn [map rv_tid e_now ren_env]. go_g; [|reflexivity].
    fold (ren_env f g e). cbn [cfg ren]. fold (ren f s0).
    pose proof (take_n_map (fun a => mkRevokeArg (ren_acc f <$> rv_spender a) (rv_from_sub a) (rv_tid a) (rv_memo a) (rv_created a))
      (usize_limit (c_max_revoke (cfg s0))) (a :: l)) as T.
    cbn [map] in T. rewrite T. rewrite (items_ren (revoke_token_approvals e)) by (intros; apply revoke_ren).
    destruct (run_items _ _ _) as [[]|]; reflexivity.
  - unfold icrc37_revoke_collection_approvals. cbn [cfg ren]. fold (ren f s).
    rewrite take_n_map, (items_ren (revoke_collection_approvals e)) by (intros; apply revoke_coll_ren).
    destruct (run_items _ _ _) as [[]|]; reflexivity.
  - unfold icrc37_transfer_from. rewrite (items_ren (transfer_from e)) by (intros; apply transfer_from_ren).
    destruct (run_items _ _ _) as [[]|]; reflexivity.
  - rewrite collection_ren. destruct (update_collection_metadata e s u) as [[? []]|]; reflexivity.
  - rewrite mint_ren. destruct (mint e s reqs) as [[? []]|]; reflexivity.
  - rewrite update_ren. destruct (update_nft_metadata e s tid kvs) as [[? []]|]; reflexivity.
  - rewrite burn_ren. destruct (burn_nft e s tid) as [[? []]|]; reflexivity.
  - rewrite grant_ren. destruct (grant_permission e s p perm) as [[? []]|]; reflexivity.
  - rewrite revoke_perm_ren. destruct (revoke_permission e s p perm) as [[? []]|]; reflexivity.
  - unfold init_upload. rewrite (entry_ren e s _ (init_upload_first e path size)).
    + destruct (upload_entry e s _) as [? [[]|]]; reflexivity.
    + intros s1. unfold init_upload_first. change (contains_path (ren f s1) path) with (contains_path s1 path).
      destruct (contains_path _ _); [reflexivity|]. destruct (_ <? _); reflexivity.
  - unfold store_chunk. rewrite (entry_ren e s _ (store_chunk_first e path)).
    + destruct (upload_entry e s _) as [? [[]|]]; reflexivity.
    + intros s1. unfold store_chunk_first. cbn [files subs ren]. destruct (files s1 !! path) as [u|]; [|reflexivity].
      destruct (u_state u); try reflexivity; destruct (bool_decide _); reflexivity.
  - unfold finalize_upload. rewrite (entry_ren e s _ (finalize_upload_first e path)).
    + destruct (upload_entry e s _) as [? [[]|]]; reflexivity.
    + intros s1. unfold finalize_upload_first. cbn [files subs ren]. destruct (files s1 !! path) as [u|]; [|reflexivity].
      destruct (u_state u); try reflexivity; destruct (bool_decide _); reflexivity.
  - unfold cancel_upload. rewrite (entry_ren e s _ (cancel_upload_first e path)).
    + destruct (upload_entry e s _) as [? [[]|]]; reflexivity.
    + intros s1. unfold cancel_upload_first. cbn [files subs ren]. destruct (files s1 !! path) as [u|]; [|reflexivity].
      destruct (u_state u); try reflexivity; destruct (bool_decide _); reflexivity.
  - cbn [e_now ren_env]. rewrite resume_ren. destruct (resume (e_now e) id r s) as [? [[]|]]; reflexivity.
  - cbn. f_equal. unfold upgrade, ren, set_pend, clone_state. cbn. f_equal. rewrite fmap_empty. reflexivity.
Qed.

End rename.

(** A renamed message on a renamed ledger leaves the renamed ledger and gets the same answer: apart from the anonymous
    principal the program knows nobody by name, so nobody has powers that were not given. *)
Theorem C151_step f g e o s :
  renaming f g ->
  step (ren_env f g e) (ren_op f o) (ren f s) = (ren f (fst (step e o s)), snd (step e o s)).
Proof. intros R. apply step_ren. exact R. Qed.
Print Assumptions C151_step.

(** So it is for whole histories, with all the answers. *)
Theorem C151_history f g h s :
  renaming f g ->
  let h' := map (fun eo => (ren_env f g (fst eo), ren_op f (snd eo))) h in
  run h' (ren f s) = ren f (run h s) /\
  map ev_ans (trace h' (ren f s)) = map ev_ans (trace h s).
Proof.
  intros R. cbv zeta. revert s. induction h as [|[e o] h IH]; intros s; [split; reflexivity|].
  cbn [map run trace fst snd]. rewrite (C151_step f g e o s R). destruct (step e o s) as [s1 a]. cbn [fst snd map ev_ans].
  destruct (IH s1) as [E1 E2]. split; [exact E1|]. rewrite E2. reflexivity.
Qed.
Print Assumptions C151_history.

(** Installation: whoever installs, the ledger starts the same; only the arguments (and, in test mode, the installer) say who
    may what. *)
Definition ren_init (f : principal -> principal) (a : init_args) : init_args :=
  mkInit (i_test_mode a) (kmap f (i_permissions a)) (i_description a) (i_symbol a) (i_name a) (i_logo a) (i_supply_cap a)
    (i_max_query a) (i_max_update a) (i_max_take a) (i_default_take a) (i_max_memo a) (i_atomic a) (i_tx_window a) (i_drift a)
    (i_threshold a) (i_collection_metadata a) (i_max_appr a) (i_max_revoke a).

Lemma perm_grant_ren (f g : principal -> principal) (p : principal) (q : permission) (m : gmap principal (list permission)) : renaming f g ->
  perm_grant (f p) q (kmap f m) = kmap f (perm_grant p q m).
Proof.
  intros R. pose proof (f_inj f g R) as I. unfold perm_grant. rewrite kmap_insert, lookup_kmap by apply _. reflexivity.
Qed.

Theorem C151_install f g caller url_ok a :
  renaming f g ->
  init (f caller) url_ok (ren_init f a) = ren f <$> init caller url_ok a.
Proof.
  intros R. unfold init. cbn [i_logo i_tx_window i_max_revoke i_max_appr i_test_mode i_permissions ren_init].
  destruct (match i_logo a with Some _ => _ | None => _ end); [reflexivity|].
  destruct (match i_tx_window a with Some _ => _ | None => _ end); [|reflexivity].
  destruct (bool_decide _); [reflexivity|]. destruct (bool_decide _); [reflexivity|].
  cbn [fmap option_fmap option_map]. f_equal. unfold ren. cbn.
  rewrite !fmap_empty, !kmap_empty, set_map_empty. f_equal.
  destruct (i_test_mode a); [|reflexivity]. unfold test_mode_grants. rewrite !(perm_grant_ren f g) by exact R. reflexivity.
Qed.
Print Assumptions C151_install.

(** ** Reads *)

Lemma sort_perm (l l' : list N) : l ≡ₚ l' -> merge_sort N.le l = merge_sort N.le l'.
Proof.
  intros P. apply (Sorted_unique N.le); [apply Sorted_merge_sort; intros ??; lia..|].
  rewrite !merge_sort_Permutation. exact P.
Qed.

Lemma ids_ren f (m : gmap N token) : map fst (map_to_list (ren_tok f <$> m)) ≡ₚ map fst (map_to_list m).
Proof. rewrite map_to_list_fmap. change (map fst ?l) with (fst <$> l). rewrite <- list_fmap_compose. reflexivity. Qed.

Lemma account_ids_ren f g s a : renaming f g ->
  tokens_ids_of_account (ren f s) (ren_acc f a) ≡ₚ tokens_ids_of_account s a.
Proof.
  intros R. unfold tokens_ids_of_account. cbn [tokens ren]. rewrite map_to_list_fmap.
  induction (map_to_list (tokens s)) as [|[k t] l IH]; [reflexivity|]. cbn [fmap list_fmap]. rewrite !filter_cons. cbn.
  assert (E : akey (ren_acc f (t_owner t)) = akey (ren_acc f a) <-> akey (t_owner t) = akey a)
    by (rewrite !akey_ren; apply (key_iff f g R)).
  destruct (decide (akey (ren_acc f (t_owner t)) = _)) as [D|D], (decide (akey (t_owner t) = akey a)) as [D'|D']; try tauto.
  cbn. rewrite IH. reflexivity.
Qed.

Lemma is_approved_ren f g s now a : renaming f g ->
  is_approved (ren f s) now (mkIsApproved (ren_acc f (ia_spender a)) (ia_from_sub a) (ia_tid a)) = is_approved s now a.
Proof.
  intros R. pose proof (key_inj f g R) as KI. pose proof (f_inj f g R) as FI.
  unfold is_approved. cbn [ia_spender ia_from_sub ia_tid]. cbn [tok_appr col_appr ren]. fold (ren f s).
  f_equal; [f_equal|].
  - rewrite owner_ren. destruct (owner_of s (ia_tid a)) as [o|]; [|reflexivity]. cbn [fmap option_fmap option_map].
    exact (acc_eqb_ren f g R o (mkAcc (acc_owner (ia_spender a)) (ia_from_sub a))).
  - rewrite lookup_fmap. destruct (tok_appr s !! ia_tid a) as [m|]; cbn; [|reflexivity].
    rewrite akey_ren, (apps_lookup f g R). destruct (m !! akey (ia_spender a)) as [[x ap]|]; reflexivity.
  - rewrite akey_ren, lookup_kmap, lookup_fmap by apply _. rewrite (apps_default f).
    apply eq_true_iff_eq. rewrite !existsb_exists. split.
    + intros ([k [x ap]] & I & B). apply elem_of_list_In, elem_of_map_to_list in I. unfold ren_apps in I.
      apply lookup_kmap_Some in I as (k' & -> & I); [|apply _]. rewrite lookup_fmap in I.
      destruct (default ∅ (col_appr s !! akey (ia_spender a)) !! k') as [[x' ap']|] eqn:E; [|discriminate]. injection I as <- <-.
      exists (k', (x', ap')). split; [apply elem_of_list_In, elem_of_map_to_list; exact E|].
      cbn in B |- *. apply andb_true_iff in B as [B1 B2]. apply bool_decide_eq_true in B1, B2. apply FI in B1.
      apply andb_true_iff. split; apply bool_decide_eq_true; assumption.
    + intros ([k [x ap]] & I & B). apply elem_of_list_In, elem_of_map_to_list in I.
      exists (ren_key f k, ren_entry f (x, ap)). split.
      * apply elem_of_list_In, elem_of_map_to_list. rewrite (apps_lookup f g R), I. reflexivity.
      * cbn in B |- *. apply andb_true_iff in B as [B1 B2]. apply bool_decide_eq_true in B1, B2.
        apply andb_true_iff. split; apply bool_decide_eq_true; [rewrite B1; reflexivity|exact B2].
Qed.

(** What is read of the renamed ledger is the renamed answer. *)
Theorem C151_reads f g s :
  renaming f g ->
  let s' := ren f s in
  (forall ids, icrc7_owner_of s' ids = option_map (map (option_map (ren_acc f))) (icrc7_owner_of s ids)) /\
  (forall l, icrc7_balance_of s' (map (ren_acc f) l) = icrc7_balance_of s l) /\
  (forall prev tk, icrc7_tokens s' prev tk = icrc7_tokens s prev tk) /\
  (forall a prev tk, icrc7_tokens_of s' (ren_acc f a) prev tk = icrc7_tokens_of s a prev tk) /\
  (forall ids, icrc7_token_metadata s' ids = icrc7_token_metadata s ids) /\
  icrc7_collection_metadata s' = icrc7_collection_metadata s /\
  (forall now l, icrc37_is_approved s' now (map (fun a => mkIsApproved (ren_acc f (ia_spender a)) (ia_from_sub a) (ia_tid a)) l) =
     icrc37_is_approved s now l) /\
  (forall c p q, query_has_permission s' (f c) (f p) q = query_has_permission s c p q) /\
  (forall c p, get_user_permissions s' (f c) (f p) = get_user_permissions s c p) /\
  (forall c, get_all_storage_subcanisters s' (f c) = get_all_storage_subcanisters s c) /\
  (forall c k, query_upload_status s' (f c) k = query_upload_status s c k).
Proof.
  intros R s'. subst s'. pose proof (key_inj f g R) as KI. pose proof (f_inj f g R) as FI. splits.
  - intros ids. unfold icrc7_owner_of, batch_query. cbn [cfg ren query_limit]. change (query_limit (ren f s)) with (query_limit s).
    destruct (_ <? _); [reflexivity|]. cbn. f_equal. rewrite map_map. apply map_ext. intros t. apply owner_ren.
  - intros l. unfold icrc7_balance_of, batch_query. change (query_limit (ren f s)) with (query_limit s). unfold nlen. rewrite map_length.
    destruct (_ <? _); [reflexivity|]. f_equal. rewrite map_map. apply map_ext. intros a. unfold tokens_balance_of. cbn [by_owner ren].
    rewrite akey_ren, lookup_kmap by apply _. reflexivity.
  - intros prev tk. unfold icrc7_tokens. change (take_ok (ren f s) tk) with (take_ok s tk). destruct (take_ok s tk); [|reflexivity].
    f_equal. unfold page_of. change (page_size (ren f s) tk) with (page_size s tk). cbn [tokens ren].
    rewrite (sort_perm _ _ (ids_ren f (tokens s))). reflexivity.
  - intros a prev tk. unfold icrc7_tokens_of. change (take_ok (ren f s) tk) with (take_ok s tk). destruct (take_ok s tk); [|reflexivity].
    f_equal. unfold page_of. change (page_size (ren f s) tk) with (page_size s tk).
    rewrite (sort_perm _ _ (account_ids_ren f g s a R)). reflexivity.
  - intros ids. unfold icrc7_token_metadata, batch_query. change (query_limit (ren f s)) with (query_limit s).
    destruct (_ <? _); [reflexivity|]. f_equal. apply map_ext. intros t. cbn [tokens ren]. rewrite lookup_fmap.
    destruct (tokens s !! t); reflexivity.
  - unfold icrc7_collection_metadata, total_supply. cbn [tokens cfg ren]. rewrite map_size_fmap. reflexivity.
  - intros now l. unfold icrc37_is_approved. rewrite map_map. apply map_ext. intros a. apply (is_approved_ren f g). exact R.
  - intros c p q. unfold query_has_permission. rewrite !(perm_ren f g R). reflexivity.
  - intros c p. unfold get_user_permissions. rewrite (perm_ren f g R). cbn [perms ren]. rewrite lookup_kmap by apply _. reflexivity.
  - intros c. unfold get_all_storage_subcanisters. rewrite (perm_ren f g R). reflexivity.
  - intros c k. unfold query_upload_status. rewrite (perm_ren f g R). reflexivity.
Qed.
Print Assumptions C151_reads.

(** Sorting commutes with a map that keeps the order. *)
Section sorting.
Context {A : Type} (L : relation A) `{forall x y, Decision (L x y)} (h : A -> A) (K : forall x y, L (h x) (h y) <-> L x y).

Lemma list_merge_map l1 l2 : list_merge L (map h l1) (map h l2) = map h (list_merge L l1 l2).
Proof.
  revert l2. induction l1 as [|x l1 IH1]; intros l2; [destruct l2; reflexivity|].
  induction l2 as [|y l2 IH2]; [reflexivity|]. cbn.
  destruct (decide (L (h x) (h y))) as [D|D], (decide (L x y)) as [D'|D'];
    [|destruct (D' (proj1 (K x y) D))|destruct (D (proj2 (K x y) D'))|]; cbn; f_equal.
  - apply (IH1 (y :: l2)).
  - exact IH2.
Qed.

Lemma merge_to_stack_map st l :
  merge_list_to_stack L (map (option_map (map h)) st) (map h l) = map (option_map (map h)) (merge_list_to_stack L st l).
Proof.
  revert l. induction st as [|[l'|] st IH]; intros l; cbn; [reflexivity| |reflexivity].
  f_equal. rewrite list_merge_map. apply IH.
Qed.
Lemma merge_stack_map st : merge_stack L (map (option_map (map h)) st) = map h (merge_stack L st).
Proof. induction st as [|[l|] st IH]; cbn; [reflexivity| |exact IH]. rewrite IH. apply list_merge_map. Qed.
Lemma merge_sort_map l : merge_sort L (map h l) = map h (merge_sort L l).
Proof.
  unfold merge_sort. change (@nil (option (list A))) with (map (option_map (map h)) (@nil (option (list A)))) at 1.
  generalize (@nil (option (list A))). induction l as [|x l IH]; intros st; cbn; [apply merge_stack_map|].
  change [h x] with (map h [x]). rewrite (merge_to_stack_map st [x]). apply IH.
Qed.
End sorting.

(** The lists of approvals: the entries are the renamed ones, and so are the pages made of them. *)
Theorem C151_approval_lists f g s :
  renaming f g ->
  (forall t, token_approvals_entries (ren f s) t ≡ₚ map (ren_entry f) (token_approvals_entries s t)) /\
  (forall a, collection_approvals_entries (ren f s) (ren_acc f a) ≡ₚ map (ren_entry f) (collection_approvals_entries s a)) /\
  (forall l prev tk, approvals_page (map (ren_entry f) l) (ren_acc f <$> prev) tk = map (ren_info f) (approvals_page l prev tk)).
Proof.
  intros R. pose proof (key_inj f g R) as KI. pose proof (f_inj f g R) as FI.
  assert (M : forall m : appmap, map snd (map_to_list (ren_apps f m)) ≡ₚ map (ren_entry f) (map snd (map_to_list m))).
  { intros m. unfold ren_apps. unfold kmap. rewrite map_to_list_to_map.
    - rewrite map_to_list_fmap. change (map ?h ?l) with (h <$> l). rewrite <- !list_fmap_compose. reflexivity.
    - rewrite <- list_fmap_compose. rewrite (list_fmap_ext _ (ren_key f ∘ fst)) by (intros ? [] ?; reflexivity).
      rewrite list_fmap_compose. apply NoDup_fmap_2; [apply _|]. apply NoDup_fst_map_to_list. }
  splits.
  - intros t. unfold token_approvals_entries. cbn [tok_appr ren]. rewrite lookup_fmap.
    destruct (tok_appr s !! t) as [m|]; cbn; [apply M|reflexivity].
  - intros a. unfold collection_approvals_entries. cbn [col_appr ren]. rewrite akey_ren, lookup_kmap, lookup_fmap by apply _.
    destruct (col_appr s !! akey a) as [m|]; cbn; [apply M|reflexivity].
  - intros l prev tk. unfold approvals_page. rewrite map_map. cbn zeta.
    replace (map (fun x => listed_info (ren_entry f x)) l) with (map (ren_info f) (map listed_info l)) by (rewrite map_map; reflexivity).
    set (l1 := map listed_info l).
    assert (S : merge_sort newer (map (ren_info f) l1) = map (ren_info f) (merge_sort newer l1)) by (apply merge_sort_map; intros; reflexivity).
    rewrite S. set (l2 := merge_sort newer l1).
    assert (P : forall sp, position_spender (ren_acc f sp) (map (ren_info f) l2) = position_spender sp l2).
    { intros sp. induction l2 as [|x r IH]; [reflexivity|]. cbn. rewrite (acc_eqb_ren f g R). destruct (acc_eqb _ _); [reflexivity|].
      rewrite IH. reflexivity. }
    rewrite <- take_n_map. f_equal. rewrite skipn_map. destruct prev as [sp|]; cbn; [rewrite P|]; reflexivity.
Qed.
Print Assumptions C151_approval_lists.

(** ** Example *)

(** alice and bob exchange their names. *)
Definition exchanged (p : principal) : principal :=
  if decide (p = alice) then bob else if decide (p = bob) then alice else p.

Lemma exchanged_renaming : renaming exchanged exchanged.
Proof.
  assert (I : forall p, exchanged (exchanged p) = p).
  { intros p. unfold exchanged. destruct (decide (p = alice)) as [->|N1]; [reflexivity|]. destruct (decide (p = bob)) as [->|N2]; [reflexivity|].
    rewrite decide_False, decide_False by assumption. reflexivity. }
  split; [exact I|]. split; [exact I|]. reflexivity.
Qed.

(** In the exchanged ledger bob owns tokens 1 and 2; alice is approved on token 1 and takes it to carol. *)
Example C151_example :
  let s := ren exchanged demo2 in
  renaming exchanged exchanged /\
  reachable s /\
  map (owner_of s) [1; 2; 3] = [Some (acct bob); Some (acct bob); Some (acct alice)] /\
  step (ren_env exchanged exchanged (from_ bob 3000000000)) (ren_op exchanged (OTransferFrom [tfrom alice carol 1])) s =
    (ren exchanged (fst (step (from_ bob 3000000000) (OTransferFrom [tfrom alice carol 1]) demo2)), ABatch [Ok 5]) /\
  ren_op exchanged (OTransferFrom [tfrom alice carol 1]) = OTransferFrom [tfrom bob carol 1].
Proof.
  pose proof exchanged_renaming as R. splits; [exact R| | | |reflexivity].
  - destruct (C151_history exchanged exchanged demo2_h demo0 R) as [E _].
    exists (exchanged admin), (fun _ => true), (ren_init exchanged demo_args), (ren exchanged demo0), (map (fun eo => (ren_env exchanged exchanged (fst eo), ren_op exchanged (snd eo))) demo2_h).
    split; [|symmetry; exact E]. rewrite (C151_install _ _ admin (fun _ => true) demo_args R), demo0_init. reflexivity.
  - vm_compute. reflexivity.
  - subst s. rewrite (C151_step _ _ _ _ _ R). f_equal.
Qed.
