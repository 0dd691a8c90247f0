(** C156: what is written in memos and metadata is carried, never read. *)
From Verif Require Import Base ModelPrincipal ModelState ModelIcrc7 ModelIcrc37 ModelManagement ModelLifecycle
  ModelQueries ModelStep ProofsItems ProofsCore ProofsManage ProofsOwner Spec Scenario.
From Verif Require PropertiesRename PropertiesClock PropertiesReads.

(** ** Other contents *)

(** Another text in place of every memo, of the same length, and another value in place of every value of token metadata, one
    that can be stored exactly if the first can. *)
Record rewriting (f : bytes -> bytes) (g : value -> value) : Prop := mkRewriting {
  rw_length : forall m, length (f m) = length m;
  rw_stored : forall v, encodable (g v) = encodable v
}.

(** The contents replaced, wherever there are some: memos of approvals, blocks and arguments; the metadata of tokens; the
    metadata before and after a change, in the block of the change. *)
Section contents.
Context (f : bytes -> bytes) (g : value -> value).
Definition re_memo (m : option bytes) : option bytes := option_map f m.
Definition re_pair (kv : string * value) : string * value := (fst kv, g (snd kv)).
Definition re_meta (v : value) : value := match v with VMap l => VMap (map re_pair l) | _ => v end.
Definition re_change (v : value) : value :=
  match v with VMap l => VMap (map (fun kv => (fst kv, re_meta (snd kv))) l) | _ => v end.
Definition re_appr (x : approval) : approval := mkAppr (a_spender x) (a_from x) (a_expires x) (a_created x) (re_memo (a_memo x)).
Definition re_entry (x : account * approval) : account * approval := (fst x, re_appr (snd x)).
Definition re_apps (m : appmap) : appmap := re_entry <$> m.
Definition re_tx (t : tx) : tx :=
  mkTx (tx_btype t) (tx_time t) (tx_tid t) (tx_from t) (tx_to t) (tx_spender t) (tx_exp t)
    (option_map re_change (tx_meta t)) (re_memo (tx_memo t)) (tx_created t).
Definition re_metas (m : gmap N (gmap string value)) : gmap N (gmap string value) := fmap (M := gmap string) g <$> m.
Definition re (s : state) : state :=
  mkSt (cfg s) (perms s) (tokens s) (by_owner s) (last_id s) (redirs s) (subs s)
    (re_apps <$> tok_appr s) (re_apps <$> col_appr s) (re_metas (metas s)) (windows s) (guards s)
    (files s) (map (fun x => (fst x, re_tx (snd x))) (log s)) (lcalls s) (pend s) (next_pend s).
Definition re_info (i : approval_info) : approval_info :=
  mkInfo (ai_spender i) (ai_from_sub i) (ai_expires i) (re_memo (ai_memo i)) (ai_created i).
Definition re_transfer (a : transfer_arg) : transfer_arg :=
  mkTransferArg (ta_to a) (ta_tid a) (re_memo (ta_memo a)) (ta_from_sub a) (ta_created a).
Definition re_revoke (a : revoke_arg) : revoke_arg :=
  mkRevokeArg (rv_spender a) (rv_from_sub a) (rv_tid a) (re_memo (rv_memo a)) (rv_created a).
Definition re_revoke_coll (a : revoke_coll_arg) : revoke_coll_arg :=
  mkRevokeCollArg (rc_spender a) (rc_from_sub a) (re_memo (rc_memo a)) (rc_created a).
Definition re_from (a : transfer_from_arg) : transfer_from_arg :=
  mkTransferFromArg (tf_spender_sub a) (tf_from a) (tf_to a) (tf_tid a) (re_memo (tf_memo a)) (tf_created a).
Definition re_mint (r : mint_req) : mint_req := mkMint (mr_owner r) (re_memo (mr_memo r)) (map re_pair (mr_meta r)).
Definition re_op (o : op) : op :=
  match o with
  | OTransfer l => OTransfer (map re_transfer l)
  | OApproveTokens l => OApproveTokens (map (fun a => mkApproveArg (ap_tid a) (re_info (ap_info a))) l)
  | OApproveCollection l => OApproveCollection (map re_info l)
  | ORevokeTokens l => ORevokeTokens (map re_revoke l)
  | ORevokeCollection l => ORevokeCollection (map re_revoke_coll l)
  | OTransferFrom l => OTransferFrom (map re_from l)
  | OMint l => OMint (map re_mint l)
  | OUpdateMeta t kvs => OUpdateMeta t (map re_pair kvs)
  | _ => o
  end.

(** The same caller at the same time, and the log answers for a block with the other contents what it answers for the block. *)
Record re_env (e e' : env) : Prop := mkReEnv {
  re_caller : e_caller e' = e_caller e;
  re_now : e_now e' = e_now e;
  re_answer : forall k t, e_log e' k (re_tx t) = e_log e k t
}.
End contents.

(** ** One message *)

(** A list of pairs in the order of its distinct keys is determined by its elements. *)
Lemma pairs_unique (l1 l2 : list (string * value)) :
  NoDup (map fst l1) -> StronglySorted key_le l1 -> StronglySorted key_le l2 -> l1 ≡ₚ l2 -> l1 = l2.
Proof.
  revert l2. induction l1 as [|x l1 IH]; intros [|y l2] N S1 S2 P; try reflexivity.
  - apply Permutation_length in P. discriminate.
  - apply Permutation_length in P. discriminate.
  - inversion S1 as [|? ? S1' F1]; inversion S2 as [|? ? S2' F2]; subst. cbn in N. apply NoDup_cons in N as [NI N].
    assert (X : x = y).
    { assert (I1 : x ∈ y :: l2) by (rewrite <- P; left). assert (I2 : y ∈ x :: l1) by (rewrite P; left).
      apply elem_of_cons in I1 as [->|I1]; [reflexivity|]. apply elem_of_cons in I2 as [->|I2]; [reflexivity|].
      rewrite Forall_forall in F1, F2. specialize (F1 y I2). specialize (F2 x I1). unfold key_le in F1, F2.
      destruct NI. rewrite (String.leb_antisym _ _ F1 F2). apply elem_of_list_fmap. exists y. auto. }
    subst y. f_equal. apply IH; auto. apply Permutation_cons_inv in P. exact P.
Qed.

Global Instance key_le_trans : Transitive key_le.
Proof. intros a b c. unfold key_le. apply PropertiesReads.leb_trans. Qed.
Global Instance key_le_total : Total key_le.
Proof. intros a b. apply String.leb_total. Qed.

Section re.
Context (f : bytes -> bytes) (g : value -> value) (W : rewriting f g).
Notation re := (re f g). Notation re_tx := (re_tx f g). Notation re_apps := (re_apps f). Notation re_info := (re_info f).
Notation re_appr := (re_appr f). Notation re_entry := (re_entry f). Notation re_memo := (re_memo f). Notation re_pair := (re_pair g).
Notation re_metas := (re_metas g). Notation re_mint := (re_mint f g).

Lemma sorted_re (m : gmap string value) : sorted_pairs (g <$> m) = map re_pair (sorted_pairs m).
Proof.
  unfold sorted_pairs.
  assert (Pm : merge_sort key_le (map_to_list (g <$> m)) ≡ₚ map re_pair (merge_sort key_le (map_to_list m))).
  { rewrite !merge_sort_Permutation, map_to_list_fmap. f_equiv. }
  apply pairs_unique; [| | |exact Pm].
  - apply (NoDup_Permutation_proper _ (map fst (map_to_list (g <$> m)))).
    + apply Permutation_map. apply merge_sort_Permutation.
    + apply NoDup_fst_map_to_list.
  - apply StronglySorted_merge_sort; apply _.
  - pose proof (StronglySorted_merge_sort key_le (map_to_list m)) as S. clear Pm.
    induction S as [|x l S IH F]; [constructor|]. cbn. constructor; [exact IH|].
    apply Forall_map. eapply Forall_impl; [exact F|]. intros y H. exact H.
Qed.

Lemma collect_re kvs : collect_map (map re_pair kvs) = g <$> collect_map kvs.
Proof. unfold collect_map. rewrite <- map_rev. generalize (rev kvs). intros l.
  induction l as [|[k v] l IH]; cbn; [symmetry; apply fmap_empty|]. rewrite fmap_insert, <- IH. reflexivity. Qed.

Lemma insert_re t k v m : insert_data t k (g v) (re_metas m) = re_metas <$> insert_data t k v m.
Proof.
  unfold insert_data. rewrite (rw_stored f g W). destruct (_ && _); [|reflexivity]. cbn. f_equal. unfold re_metas.
  rewrite lookup_fmap, fmap_insert. f_equal. rewrite fmap_insert. f_equal. destruct (m !! t); [reflexivity|]. cbn. symmetry. apply fmap_empty.
Qed.
Lemma add_meta_re t kvs m : add_metadata t (map re_pair kvs) (re_metas m) = re_metas <$> add_metadata t kvs m.
Proof.
  revert m. induction kvs as [|[k v] l IH]; intros m; [reflexivity|]. cbn [map add_metadata re_pair fst snd].
  rewrite insert_re. destruct (insert_data t k v m) as [m'|]; [|reflexivity]. apply IH.
Qed.
Lemma replace_re t kvs m : replace_metadata t (map re_pair kvs) (re_metas m) = re_metas <$> replace_metadata t kvs m.
Proof.
  unfold replace_metadata. rewrite collect_re, sorted_re. unfold re_metas at 1. rewrite <- fmap_delete. apply add_meta_re.
Qed.
Lemma value_re t m : meta_value t (re_metas m) = re_meta g (meta_value t m).
Proof.
  unfold meta_value, re_metas. cbn [re_meta]. f_equal. rewrite lookup_fmap, <- sorted_re. f_equal.
  destruct (m !! t); [reflexivity|]. cbn. symmetry. apply fmap_empty.
Qed.
Lemma mint_meta_re id l m : mint_metadata id (map re_mint l) (re_metas m) = re_metas <$> mint_metadata id l m.
Proof.
  revert id m. induction l as [|r l IH]; intros id m; [reflexivity|]. cbn [map mint_metadata re_mint mr_meta].
  rewrite add_meta_re. destruct (add_metadata id (mr_meta r) m) as [m'|]; [|reflexivity]. apply IH.
Qed.
Lemma memo_re s m : check_memo (re s) (re_memo m) = check_memo s m.
Proof. destruct m as [m|]; [|reflexivity]. cbn. unfold nlen. rewrite (rw_length f g W). reflexivity. Qed.
Lemma memos_re s l : check_memos (re s) (map re_mint l) = check_memos s l.
Proof. induction l as [|r l IH]; [reflexivity|]. cbn [map check_memos re_mint mr_memo]. rewrite memo_re, IH. reflexivity. Qed.

Lemma guard_re now t s :
  guard_sliding_window now t (re s) = (re (fst (guard_sliding_window now t s)), snd (guard_sliding_window now t s)) /\
  rate_limit_msg now t (re (fst (guard_sliding_window now t s))) = rate_limit_msg now t (fst (guard_sliding_window now t s)).
Proof. unfold guard_sliding_window. cbn [windows re]. destruct (_ <=? _); split; reflexivity. Qed.

Context (e : env) (L : N -> tx -> logans) (HL : forall k t, L k (re_tx t) = e_log e k t).
Definition env' : env := mkEnv (e_caller e) (e_now e) L.

Lemma add_re t s : add_transaction env' (re_tx t) (re s) = (re (fst (add_transaction e t s)), snd (add_transaction e t s)).
Proof.
  unfold add_transaction. cbn. rewrite HL. destruct (e_log e (lcalls s) t); try reflexivity.
  cbn. f_equal. unfold PropertiesMemo.re, set_log, set_lcalls. cbn. f_equal. rewrite map_app. reflexivity.
Qed.

Lemma move_re nft to s : move_token nft to (re s) = re (move_token nft to s).
Proof. reflexivity. Qed.

Lemma apps_size m : size (re_apps m) = size m.
Proof. apply map_size_fmap. Qed.
Lemma apps_lookup m k : re_apps m !! k = re_entry <$> m !! k.
Proof. apply lookup_fmap. Qed.
Lemma apps_delete m k : delete k (re_apps m) = re_apps (delete k m).
Proof. unfold PropertiesMemo.re_apps. rewrite fmap_delete. reflexivity. Qed.
Lemma apps_empty : re_apps ∅ = ∅.
Proof. apply fmap_empty. Qed.
Lemma apps_insert sp a m : appmap_insert sp (re_appr a) (re_apps m) = re_apps (appmap_insert sp a m).
Proof.
  unfold appmap_insert. rewrite apps_lookup. destruct (m !! akey sp) as [[k b]|]; cbn; unfold PropertiesMemo.re_apps; rewrite fmap_insert; reflexivity.
Qed.
Lemma apps_revoke sp m : revoke_from sp (re_apps m) = re_apps (revoke_from sp m).
Proof. destruct sp as [sp|]; cbn; [apply apps_delete|symmetry; apply apps_empty]. Qed.
Lemma apps_default m : default ∅ (re_apps <$> m) = re_apps (default ∅ m).
Proof. destruct m; cbn; [reflexivity|symmetry; apply apps_empty]. Qed.

Lemma set_tok_appr_re k m s :
  set_tok_appr (<[k := re_apps m]> (re_apps <$> tok_appr s)) (re s) = re (set_tok_appr (<[k := m]> (tok_appr s)) s).
Proof. unfold PropertiesMemo.re, set_tok_appr. cbn. f_equal. rewrite fmap_insert. reflexivity. Qed.
Lemma set_col_appr_re k m s :
  set_col_appr (<[k := re_apps m]> (re_apps <$> col_appr s)) (re s) = re (set_col_appr (<[k := m]> (col_appr s)) s).
Proof. unfold PropertiesMemo.re, set_col_appr. cbn. f_equal. rewrite fmap_insert. reflexivity. Qed.

(** What a call does with the other contents: the same, with the same answer. *)
Definition follows {B} (F' F : option (state * B)) : Prop :=
  F' = match F with None => None | Some (s', r) => Some (re s', r) end.

Lemma items_re {A} (F F' : state -> A -> option (state * res N)) (h : A -> A) :
  (forall s a, follows (F' (re s) (h a)) (F s a)) ->
  forall l s, follows (run_items F' (re s) (map h l)) (run_items F s l).
Proof.
  intros X l. induction l as [|a l IH]; intros s; [reflexivity|]. unfold follows. cbn. rewrite (X s a).
  destruct (F s a) as [[s1 b]|]; [|reflexivity]. rewrite IH. destruct (run_items F s1 l) as [[s2 bs]|]; reflexivity.
Qed.

(** *** Token by token *)

Ltac go_g := match goal with
  | |- context [guard_sliding_window ?n ?t (re ?s)] =>
      let G := fresh "G" in let M := fresh "M" in
      destruct (guard_re n t s) as (G & M); rewrite G; clear G;
      destruct (guard_sliding_window n t s) as [? []]; cbn [fst snd negb] in *;
      [clear M|rewrite M; reflexivity]
  end.
Ltac tx_is t := match goal with
  | |- context [add_transaction env' ?x _] => change x with (re_tx t)
  end.

Lemma transfer_re s a : follows (transfer_nft env' (re s) (re_transfer f a)) (transfer_nft e s a).
Proof.
  unfold follows, transfer_nft. cbn [ta_tid ta_to ta_memo ta_created e_now e_caller env' re_transfer]. go_g.
  cbn [tokens re]. destruct (tokens s0 !! ta_tid a) as [nft|]; [|reflexivity]. fold (re s0).
  rewrite memo_re. destruct (check_memo s0 (ta_memo a)) as [[]|]; try reflexivity.
  destruct (negb _ || _ || _); [reflexivity|]. cbn [cfg re].
  destruct (u64_setting _ _); [|reflexivity]. destruct (u64_setting _ _); [|destruct (_ <? _); reflexivity].
  destruct (_ <? _); [reflexivity|]. destruct (_ <? _); [reflexivity|]. fold (re s0) env'.
  tx_is (transfer_tx (e_now e) nft a (default (e_now e) (ta_created a))).
  rewrite add_re. destruct (add_transaction e _ s0) as [s2 []]; reflexivity.
Qed.

Lemma approve_re s a :
  follows (approve_token env' (re s) (mkApproveArg (ap_tid a) (re_info (ap_info a)))) (approve_token e s a).
Proof.
  unfold follows, approve_token. cbn [ap_tid ap_info e_now e_caller env']. go_g.
  cbn [ai_created re_info]. change (verify_approval_timing (re s0)) with (verify_approval_timing s0). destruct (verify_approval_timing _ _ _); try reflexivity.
  change (owner_of (re s0)) with (owner_of s0). destruct (owner_of s0 (ap_tid a)) as [ow|]; [|reflexivity].
  cbn [ai_from_sub ai_spender re_info]. destruct (negb _); [reflexivity|]. destruct (acc_eqb _ anonymous_account); [reflexivity|].
  cbn [cfg re tok_appr]. rewrite lookup_fmap.
  assert (X : match re_apps <$> tok_appr s0 !! ap_tid a with Some m => usize_limit (c_max_appr (cfg s0)) <=? N.of_nat (size m) | None => false end =
    match tok_appr s0 !! ap_tid a with Some m => usize_limit (c_max_appr (cfg s0)) <=? N.of_nat (size m) | None => false end)
    by (destruct (tok_appr s0 !! ap_tid a); cbn; [rewrite apps_size|]; reflexivity).
  cbn [re cfg] in X |- *. rewrite X. clear X. destruct (match tok_appr s0 !! ap_tid a with Some _ => _ | None => _ end); [reflexivity|].
  fold env'. fold (re s0).
  tx_is (approve_tx "37approve" (e_now e) (Some (ap_tid a)) (mkAcc (e_caller e) (ai_from_sub (ap_info a))) (ap_info a)).
  rewrite add_re. destruct (add_transaction e _ s0) as [s2 []]; cbn [fst snd]; try reflexivity.
  destruct (_ <? _); [|reflexivity]. cbn [tok_appr re]. rewrite lookup_fmap, apps_default.
  change (new_approval (re_info (ap_info a)) (mkAcc (e_caller e) (ai_from_sub (ap_info a))) (e_now e))
    with (re_appr (new_approval (ap_info a) (mkAcc (e_caller e) (ai_from_sub (ap_info a))) (e_now e))).
  rewrite apps_insert. fold (re s2). rewrite set_tok_appr_re. reflexivity.
Qed.

Lemma approve_coll_re s i : 
  follows (approve_collection env' (re s) (re_info i)) (approve_collection e s i).
Proof.
  unfold follows, approve_collection. cbn [e_now e_caller env']. go_g.
  cbn [ai_created re_info]. change (verify_approval_timing (re s0)) with (verify_approval_timing s0). destruct (verify_approval_timing _ _ _); try reflexivity.
  cbn [ai_from_sub ai_spender re_info]. destruct (acc_eqb _ anonymous_account); [reflexivity|].
  change (has_nfts (re s0)) with (has_nfts s0). destruct (negb _); [reflexivity|].
  cbn [cfg re col_appr]. rewrite lookup_fmap. set (k := akey (mkAcc (e_caller e) (ai_from_sub i))).
  assert (X : match re_apps <$> col_appr s0 !! k with Some m => usize_limit (c_max_appr (cfg s0)) <=? N.of_nat (size m) | None => false end =
    match col_appr s0 !! k with Some m => usize_limit (c_max_appr (cfg s0)) <=? N.of_nat (size m) | None => false end)
    by (destruct (col_appr s0 !! k); cbn; [rewrite apps_size|]; reflexivity).
  cbn [re cfg] in X |- *. rewrite X. clear X. destruct (match col_appr s0 !! k with Some _ => _ | None => _ end); [reflexivity|].
  fold env'. fold (re s0).
  tx_is (approve_tx "37approve_coll" (e_now e) None (mkAcc (e_caller e) (ai_from_sub i)) i).
  rewrite add_re. destruct (add_transaction e _ s0) as [s2 []]; cbn [fst snd]; try reflexivity.
  cbn [col_appr re]. rewrite lookup_fmap, apps_default.
  change (new_approval (re_info i) (mkAcc (e_caller e) (ai_from_sub i)) (e_now e))
    with (re_appr (new_approval i (mkAcc (e_caller e) (ai_from_sub i)) (e_now e))).
  rewrite apps_insert. fold (re s2). rewrite set_col_appr_re. reflexivity.
Qed.

Lemma revoke_re s a :
  follows (revoke_token_approvals env' (re s) (re_revoke f a)) (revoke_token_approvals e s a).
Proof.
  unfold follows, revoke_token_approvals. cbn [rv_spender rv_from_sub rv_tid rv_memo rv_created e_now e_caller env' re_revoke].
  change (verify_opt_timing (re s)) with (verify_opt_timing s). destruct (verify_opt_timing _ _ _); try reflexivity.
  change (owner_of (re s)) with (owner_of s). destruct (owner_of s (rv_tid a)) as [ow|]; [|reflexivity].
  destruct (negb _); [reflexivity|]. cbn [tok_appr re]. rewrite lookup_fmap.
  destruct (tok_appr s !! rv_tid a) as [m|]; cbn [fmap option_fmap option_map]; [|reflexivity].
  fold env'. fold (re s).
  tx_is (revoke_tx "37revoke" (e_now e) (Some (rv_tid a)) (mkAcc (e_caller e) (rv_from_sub a)) (rv_spender a) (rv_memo a) (rv_created a)).
  rewrite add_re. destruct (add_transaction e _ s) as [s2 []]; cbn [fst snd]; try reflexivity.
  cbn [tok_appr re]. fold (re s2). rewrite apps_revoke, set_tok_appr_re. reflexivity.
Qed.

Lemma revoke_coll_re s a :
  follows (revoke_collection_approvals env' (re s) (re_revoke_coll f a)) (revoke_collection_approvals e s a).
Proof.
  unfold follows, revoke_collection_approvals. cbn [rc_spender rc_from_sub rc_memo rc_created e_now e_caller env' re_revoke_coll].
  go_g. change (verify_opt_timing (re s0)) with (verify_opt_timing s0). destruct (verify_opt_timing _ _ _); try reflexivity.
  cbn [col_appr re]. rewrite lookup_fmap.
  destruct (col_appr s0 !! _) as [m|]; cbn [fmap option_fmap option_map]; [|reflexivity].
  fold env'. fold (re s0).
  tx_is (revoke_tx "37revoke_coll" (e_now e) None (mkAcc (e_caller e) None) (rc_spender a) (rc_memo a) (rc_created a)).
  rewrite add_re. destruct (add_transaction e _ s0) as [s2 []]; cbn [fst snd]; try reflexivity.
  cbn [col_appr re]. fold (re s2). rewrite apps_revoke, set_col_appr_re. reflexivity.
Qed.

Lemma unexpired_re now ap : unexpired (now) (re_appr ap) = unexpired now ap.
Proof. destruct ap as [? ? [x|] ? ?]; cbn; [|reflexivity]. apply eq_true_iff_eq. rewrite !N.ltb_lt. lia. Qed.

Lemma has_valid_re now m k : has_valid (now) (re_apps <$> m) k = has_valid now m k.
Proof.
  destruct m as [m|]; cbn; [|reflexivity]. rewrite apps_lookup. destruct (m !! k) as [[x ap]|]; [|reflexivity]. apply unexpired_re.
Qed.

Lemma drop_tok_re now k sp s :
  set_tok_appr (drop_expired (now) k sp (re_apps <$> tok_appr s)) (re s) =
    re (set_tok_appr (drop_expired now k sp (tok_appr s)) s).
Proof.
  unfold drop_expired. rewrite lookup_fmap. destruct (tok_appr s !! k) as [m|]; cbn [fmap option_fmap option_map]; [|reflexivity].
  rewrite apps_lookup. destruct (m !! sp) as [[x ap]|]; cbn [fmap option_fmap option_map re_entry fst snd]; [|reflexivity].
  rewrite unexpired_re. destruct (unexpired now ap); [reflexivity|]. rewrite apps_delete, set_tok_appr_re. reflexivity.
Qed.
Lemma drop_col_re now k sp s :
  set_col_appr (drop_expired (now) k sp (re_apps <$> col_appr s)) (re s) =
    re (set_col_appr (drop_expired now k sp (col_appr s)) s).
Proof.
  unfold drop_expired. rewrite lookup_fmap. destruct (col_appr s !! k) as [m|]; cbn [fmap option_fmap option_map]; [|reflexivity].
  rewrite apps_lookup. destruct (m !! sp) as [[x ap]|]; cbn [fmap option_fmap option_map re_entry fst snd]; [|reflexivity].
  rewrite unexpired_re. destruct (unexpired now ap); [reflexivity|]. rewrite apps_delete, set_col_appr_re. reflexivity.
Qed.

Lemma transfer_from_re s a :
  follows (transfer_from env' (re s) (re_from f a)) (transfer_from e s a).
Proof.
  unfold follows, transfer_from. cbn [tf_spender_sub tf_from tf_to tf_tid tf_memo tf_created e_now e_caller env' re_from].
  go_g. change (verify_opt_timing (re s0)) with (verify_opt_timing s0). destruct (verify_opt_timing _ _ _); try reflexivity.
  cbn [tokens re]. destruct (tokens s0 !! tf_tid a) as [nft|]; [|reflexivity].
  destruct (acc_eqb (tf_from a) _); [reflexivity|]. destruct (acc_eqb _ anonymous_account); [reflexivity|].
  fold env'. fold (re s0). rewrite !check_token_approval_eq, !check_collection_approval_eq.
  change (tok_appr (re s0)) with (re_apps <$> tok_appr s0). rewrite lookup_fmap, has_valid_re, drop_tok_re.
  set (s1 := set_tok_appr (drop_expired _ _ _ _) s0).
  change (col_appr (re s1)) with (re_apps <$> col_appr s1). rewrite lookup_fmap, has_valid_re, drop_col_re.
  set (s2 := set_col_appr (drop_expired _ _ _ _) s1). destruct (negb _ || _); [reflexivity|].
  tx_is (transfer_from_tx (e_now e) a (mkAcc (e_caller e) (tf_spender_sub a))).
  rewrite add_re. destruct (add_transaction e _ s2) as [s4 []]; cbn [fst snd]; try reflexivity.
  rewrite move_re. f_equal. f_equal. set (s5 := move_token nft (tf_to a) s4).
  unfold PropertiesMemo.re, set_tok_appr, set_col_appr. cbn. f_equal; rewrite fmap_delete; reflexivity.
Qed.


(** *** Management calls *)

Lemma guard_new_re p s : guard_new p (re s) = re <$> guard_new p s.
Proof. unfold guard_new. cbn [guards re]. destruct (_ <=? _)%nat; reflexivity. Qed.

Lemma lock_re {A} s (body' body : state -> option (state * mres A)) :
  (forall s, follows (body' (re s)) (body s)) -> follows (with_lock env' (re s) body') (with_lock e s body).
Proof.
  intros B. unfold follows, with_lock. cbn [e_caller env']. rewrite guard_new_re.
  destruct (guard_new (e_caller e) s) as [s1|]; cbn [fmap option_fmap option_map]; [|reflexivity].
  rewrite (B s1). destruct (body s1) as [[s2 r]|]; reflexivity.
Qed.

Lemma permission_re {A} q m s (b' b : option (state * mres A)) :
  follows b' b -> follows (with_permission q m env' (re s) b') (with_permission q m e s b).
Proof.
  intros B. unfold follows, with_permission. cbn [e_caller env']. change (has_permission (re s)) with (has_permission s).
  destruct (has_permission _ _ _); [exact B|reflexivity].
Qed.

Lemma mint_log_re id l s : mint_log env' id (map re_mint l) (re s) = (re (fst (mint_log e id l s)), snd (mint_log e id l s)).
Proof.
  revert id s. induction l as [|r l IH]; intros id s; [reflexivity|]. cbn [map mint_log].
  tx_is (mint_tx (e_now e) id r). rewrite add_re. destruct (add_transaction e _ s) as [s1 []]; cbn [fst snd]; try reflexivity. apply IH.
Qed.
Lemma mint_insert_re id l s : mint_insert id (map re_mint l) (re s) = re (mint_insert id l s).
Proof. revert id s. induction l as [|r l IH]; intros id s; [reflexivity|]. cbn [map mint_insert]. rewrite <- IH. reflexivity. Qed.

Lemma mint_re s l : follows (mint env' (re s) (map re_mint l)) (mint e s l).
Proof.
  unfold mint. apply permission_re, lock_re. intros s1. unfold follows, mint_body. cbn [cfg last_id tokens metas re].
  unfold nlen. rewrite map_length. destruct (_ <? _); [reflexivity|]. destruct (_ <? _); [reflexivity|].
  fold (re s1). rewrite memos_re. destruct (check_memos s1 l) as [[]|]; try reflexivity.
  rewrite mint_meta_re. destruct (mint_metadata _ _ _) as [m|]; cbn [fmap option_fmap option_map]; [|reflexivity].
  change (set_metas (re_metas m) (re s1)) with (re (set_metas m s1)). rewrite mint_log_re.
  destruct (mint_log e _ l _) as [s2 [msg|]]; cbn [fst snd]; [reflexivity|].
  change (set_last_id ?n (re s2)) with (re (set_last_id n s2)). rewrite mint_insert_re. reflexivity.
Qed.

Lemma update_re s t kvs : follows (update_nft_metadata env' (re s) t (map re_pair kvs)) (update_nft_metadata e s t kvs).
Proof.
  unfold update_nft_metadata. apply permission_re, lock_re. intros s1. unfold follows, update_nft_metadata_body.
  cbn [tokens metas re]. destruct (tokens s1 !! t) as [tok|]; [|reflexivity].
  rewrite replace_re. destruct (replace_metadata _ _ _) as [m|]; cbn [fmap option_fmap option_map]; [|reflexivity].
  fold (re s1). cbn [metas set_metas]. rewrite !value_re.
  change (set_metas (re_metas m) (re s1)) with (re (set_metas m s1)).
  tx_is (update_meta_tx e t (meta_value t (metas s1)) (meta_value t m)).
  rewrite add_re. destruct (add_transaction e _ _) as [s2 []]; reflexivity.
Qed.

Lemma burn_re s t : follows (burn_nft env' (re s) t) (burn_nft e s t).
Proof.
  unfold burn_nft. apply lock_re. intros s1. unfold follows, burn_body.
  cbn [tokens re e_caller e_now env']. destruct (tokens s1 !! t) as [tok|]; [|reflexivity].
  destruct (negb _); [reflexivity|]. fold env' (re s1). tx_is (burn_tx (e_now e) t tok).
  rewrite add_re. destruct (add_transaction e _ _) as [s2 []]; reflexivity.
Qed.

Lemma grant_re s p q : follows (grant_permission env' (re s) p q) (grant_permission e s p q).
Proof. unfold grant_permission. apply permission_re, lock_re. intros s1. reflexivity. Qed.
Lemma revoke_perm_re s p q : follows (revoke_permission env' (re s) p q) (revoke_permission e s p q).
Proof. unfold revoke_permission. apply permission_re, lock_re. intros s1. reflexivity. Qed.
Lemma collection_re s u : follows (update_collection_metadata env' (re s) u) (update_collection_metadata e s u).
Proof. unfold update_collection_metadata. apply permission_re, lock_re. intros s1. reflexivity. Qed.

(** *** Uploads *)

Lemma entry_re s (F' F : state -> state * (err + pending)) :
  (forall s, F' (re s) = (re (fst (F s)), snd (F s))) ->
  upload_entry env' (re s) F' = (re (fst (upload_entry e s F)), snd (upload_entry e s F)).
Proof.
  intros X. unfold upload_entry. cbn [e_caller env']. change (has_permission (re s)) with (has_permission s).
  rewrite guard_new_re. destruct (has_permission _ _ _); [|reflexivity].
  destruct (guard_new (e_caller e) s) as [s1|]; cbn [fmap option_fmap option_map]; [|reflexivity].
  rewrite X. destruct (F s1) as [s2 [x|p]]; reflexivity.
Qed.

Lemma resume_re now id r s : resume now id r (re s) = (re (fst (resume now id r s)), snd (resume now id r s)).
Proof.
  unfold resume. cbn [pend re]. destruct (pend s !! id) as [p|]; [|reflexivity]. fold (re s).
  assert (X : continue now p r (re s) = (re (fst (continue now p r s)), snd (continue now p r s))) by (destruct p, r; reflexivity).
  rewrite X. destruct (continue now p r s) as [s1 a]. reflexivity.
Qed.

(** ** The theorem *)

Ltac batch := match goal with
  | |- context [ans_batch _ ?F] => let s' := fresh in destruct F as [[s' ?]|]; reflexivity
  end.
Ltac first_part F := let s1 := fresh in intros s1; unfold F; cbn [files subs re];
  destruct (files s1 !! _) as [u|]; [|reflexivity]; destruct (u_state u); try reflexivity; destruct (bool_decide _); reflexivity.

Lemma step_re o s : step env' (re_op f g o) (re s) = (re (fst (step e o s)), snd (step e o s)).
Proof.
  destruct o; cbn [re_op step].
  - assert (X : follows (icrc7_transfer env' (re s) (map (re_transfer f) args)) (icrc7_transfer e s args)).
    { unfold follows, icrc7_transfer. destruct args as [|a l]; [reflexivity|].
      cbn [map]. cbn [cfg re e_caller env']. destruct (usize_try _) as [mx|]; [|reflexivity].
      unfold nlen. cbn [length]. rewrite map_length. destruct (_ && _); [reflexivity|].
      destruct (bool_decide _); [reflexivity|]. fold env' (re s).
      pose proof (PropertiesRename.take_n_map (re_transfer f) mx (a :: l)) as Y. cbn [map] in Y. rewrite Y.
      apply items_re. intros; apply transfer_re. }
    rewrite X. batch.
  - unfold icrc37_approve_tokens. rewrite (items_re (approve_token e)); [batch|intros; apply approve_re].
  - unfold icrc37_approve_collection. rewrite (items_re (approve_collection e)); [batch|intros; apply approve_coll_re].
  - unfold icrc37_revoke_token_approvals. destruct args as [|a l]; [reflexivity|]. cbn [map rv_tid e_now env' re_revoke]. go_g.
    fold env'. cbn [cfg re]. fold (re s0).
    pose proof (PropertiesRename.take_n_map (re_revoke f) (usize_limit (c_max_revoke (cfg s0))) (a :: l)) as X.
    cbn [map] in X. rewrite X. rewrite (items_re (revoke_token_approvals e)); [|intros; apply revoke_re].
    destruct (run_items _ _ _) as [[]|]; reflexivity.
  - unfold icrc37_revoke_collection_approvals. cbn [cfg re]. fold (re s).
    rewrite PropertiesRename.take_n_map, (items_re (revoke_collection_approvals e)); [batch|intros; apply revoke_coll_re].
  - unfold icrc37_transfer_from. rewrite (items_re (transfer_from e)); [batch|intros; apply transfer_from_re].
  - rewrite collection_re. destruct (update_collection_metadata e s u) as [[? []]|]; reflexivity.
  - rewrite mint_re. destruct (mint e s reqs) as [[? []]|]; reflexivity.
  - rewrite update_re. destruct (update_nft_metadata e s tid kvs) as [[? []]|]; reflexivity.
  - rewrite burn_re. destruct (burn_nft e s tid) as [[? []]|]; reflexivity.
  - rewrite grant_re. destruct (grant_permission e s p perm) as [[? []]|]; reflexivity.
  - rewrite revoke_perm_re. destruct (revoke_permission e s p perm) as [[? []]|]; reflexivity.
  - unfold init_upload. rewrite (entry_re s _ (init_upload_first e path size)).
    + destruct (upload_entry e s _) as [? [[]|]]; reflexivity.
    + intros s1. unfold init_upload_first. change (contains_path (re s1)) with (contains_path s1).
      destruct (contains_path _ _); [reflexivity|]. destruct (_ <? _); reflexivity.
  - unfold store_chunk. rewrite (entry_re s _ (store_chunk_first e path)); [|first_part store_chunk_first].
    destruct (upload_entry e s _) as [? [[]|]]; reflexivity.
  - unfold finalize_upload. rewrite (entry_re s _ (finalize_upload_first e path)); [|first_part finalize_upload_first].
    destruct (upload_entry e s _) as [? [[]|]]; reflexivity.
  - unfold cancel_upload. rewrite (entry_re s _ (cancel_upload_first e path)); [|first_part cancel_upload_first].
    destruct (upload_entry e s _) as [? [[]|]]; reflexivity.
  - cbn [e_now env']. rewrite resume_re. destruct (resume (e_now e) id r s) as [? [[]|]]; reflexivity.
  - reflexivity.
Qed.

End re.

(** Whatever is written in memos and in the metadata of tokens: with other texts and values in their place, in the message and
    in the ledger, the answer is the same and the ledger afterwards has again the other contents in the same places. *)
Theorem C156_step f g e e' o s :
  rewriting f g -> re_env f g e e' ->
  step e' (re_op f g o) (re f g s) = (re f g (fst (step e o s)), snd (step e o s)).
Proof.
  intros W [C T A]. destruct e' as [c n L]. cbn in C, T, A. subst c n. exact (step_re f g W e L A o s).
Qed.
Print Assumptions C156_step.

(** So it is for whole histories, with all the answers. *)
Theorem C156_history f g h h' s :
  rewriting f g ->
  Forall2 (fun x x' => re_env f g (fst x) (fst x') /\ snd x' = re_op f g (snd x)) h h' ->
  run h' (re f g s) = re f g (run h s) /\
  map ev_ans (trace h' (re f g s)) = map ev_ans (trace h s).
Proof.
  intros W F. revert s. induction F as [|[e o] [e' o'] h h' [E O] F IH]; intros s; [split; reflexivity|]. cbn in E, O. subst o'.
  cbn [map run trace fst snd]. rewrite (C156_step f g e e' o s W E). destruct (step e o s) as [s1 a]. cbn [fst snd map ev_ans] in *.
  destruct (IH s1) as [E1 E2]. split; [exact E1|]. rewrite E2. reflexivity.
Qed.
Print Assumptions C156_history.

(** The ledger starts without contents, so the other contents need not be there at the start. *)
Theorem C156_install f g caller url_ok a s : init caller url_ok a = Some s -> re f g s = s.
Proof.
  unfold init. destruct (match i_logo a with Some _ => _ | None => _ end); [discriminate|].
  destruct (match i_tx_window a with Some _ => _ | None => _ end); [|discriminate].
  destruct (bool_decide _); [discriminate|]. destruct (bool_decide _); [discriminate|].
  intros [= <-]. unfold re, re_metas. cbn. rewrite !fmap_empty. reflexivity.
Qed.
Print Assumptions C156_install.

(** ** Reads *)

(** Reads tell the same, but for the contents: the metadata of tokens and the memos in the lists of approvals are the others. *)
Theorem C156_reads f g s :
  (forall ids, icrc7_owner_of (re f g s) ids = icrc7_owner_of s ids) /\
  (forall l, icrc7_balance_of (re f g s) l = icrc7_balance_of s l) /\
  (forall prev tk, icrc7_tokens (re f g s) prev tk = icrc7_tokens s prev tk) /\
  (forall a prev tk, icrc7_tokens_of (re f g s) a prev tk = icrc7_tokens_of s a prev tk) /\
  (forall t, token_metadata (re f g s) t = map (re_pair g) (token_metadata s t)) /\
  icrc7_collection_metadata (re f g s) = icrc7_collection_metadata s /\
  (forall now l, icrc37_is_approved (re f g s) now l = icrc37_is_approved s now l) /\
  (forall t, token_approvals_entries (re f g s) t ≡ₚ map (re_entry f) (token_approvals_entries s t)) /\
  (forall a, collection_approvals_entries (re f g s) a ≡ₚ map (re_entry f) (collection_approvals_entries s a)) /\
  (forall l prev tk, approvals_page (map (re_entry f) l) prev tk = map (re_info f) (approvals_page l prev tk)) /\
  (forall c k, query_upload_status (re f g s) c k = query_upload_status s c k).
Proof.
  assert (M : forall m : appmap, map snd (map_to_list (re_apps f m)) ≡ₚ map (re_entry f) (map snd (map_to_list m))).
  { intros m. unfold re_apps. rewrite map_to_list_fmap. change (map ?h ?l) with (h <$> l). rewrite <- !list_fmap_compose. reflexivity. }
  splits; try reflexivity.
  - intros t. unfold token_metadata. cbn [metas re]. unfold re_metas. rewrite lookup_fmap.
    destruct (metas s !! t_id t) as [m|]; cbn; [apply sorted_re|reflexivity].
  - intros now l. unfold icrc37_is_approved. apply map_ext. intros a.
    unfold is_approved. cbn [tok_appr col_appr re]. rewrite !lookup_fmap. f_equal; [f_equal|].
    + destruct (tok_appr s !! ia_tid a) as [m|]; cbn; [|reflexivity]. unfold re_apps. rewrite lookup_fmap.
      destruct (m !! akey (ia_spender a)) as [[x ap]|]; reflexivity.
    + destruct (col_appr s !! _) as [m|]; cbn; [|reflexivity]. apply PropertiesClock.existsb_fmap. reflexivity.
  - intros t. unfold token_approvals_entries. cbn [tok_appr re]. rewrite lookup_fmap.
    destruct (tok_appr s !! t) as [m|]; cbn; [apply M|reflexivity].
  - intros a. unfold collection_approvals_entries. cbn [col_appr re]. rewrite lookup_fmap.
    destruct (col_appr s !! akey a) as [m|]; cbn; [apply M|reflexivity].
  - intros l prev tk. unfold approvals_page. rewrite map_map. cbn zeta.
    replace (map (fun x => listed_info (re_entry f x)) l) with (map (re_info f) (map listed_info l)) by (rewrite map_map; reflexivity).
    set (l1 := map listed_info l).
    assert (S : merge_sort newer (map (re_info f) l1) = map (re_info f) (merge_sort newer l1)).
    { apply PropertiesRename.merge_sort_map. intros x y. reflexivity. }
    rewrite S. set (l2 := merge_sort newer l1).
    assert (P : forall sp, position_spender sp (map (re_info f) l2) = position_spender sp l2).
    { intros sp. induction l2 as [|x r IH]; [reflexivity|]. cbn. destruct (acc_eqb _ _); [reflexivity|]. rewrite IH. reflexivity. }
    rewrite <- PropertiesRename.take_n_map. f_equal. rewrite skipn_map. destruct prev as [sp|]; [rewrite P|]; reflexivity.
Qed.
Print Assumptions C156_reads.

(** ** Example *)

(** Every byte of a memo turned over, every 1 in metadata a 2. *)
Definition turn (m : bytes) : bytes := map (fun b => 255 - b) m.
Definition two_for_one (v : value) : value := match v with VNat 1 => VNat 2 | _ => v end.
Definition memo_h : history :=
  demo2_h ++ [(from_ alice 3000000000, OTransfer [mkTransferArg (acct bob) 1 (Some [1; 2; 3]) None None]);
              (from_ admin 4000000000, OUpdateMeta 2 [("a"%string, VNat 1)])].
Definition memo_h' : history := map (fun x => (fst x, re_op turn two_for_one (snd x))) memo_h.
(** The memo in the block of the transfer is the other one, the metadata and the block of its change have the other value, and
    everybody is answered the same. *)
Example C156_example :
  rewriting turn two_for_one /\
  Forall2 (fun x x' => re_env turn two_for_one (fst x) (fst x') /\ snd x' = re_op turn two_for_one (snd x)) memo_h memo_h' /\
  reachable (re turn two_for_one (run memo_h demo0)) /\
  map ev_ans (trace memo_h' demo0) = [ANat 1; ABatch [Ok 3]; ABatch [Ok 4]; ABatch [Ok 5]; ANat 2] /\
  map (fun x => tx_memo (snd x)) (log (run memo_h' demo0)) = [None; None; None; None; None; Some [254; 253; 252]; None] /\
  metas (run memo_h' demo0) !! 2 ≫= (fun m => m !! "a"%string) = Some (VNat 2).
Proof.
  assert (W : rewriting turn two_for_one).
  { split; [intros m; apply map_length|]. intros [| |[|[]]| | |]; reflexivity. }
  assert (F : Forall2 (fun x x' => re_env turn two_for_one (fst x) (fst x') /\ snd x' = re_op turn two_for_one (snd x)) memo_h memo_h').
  { repeat constructor. }
  splits; [exact W|exact F| | | |].
  - destruct (C156_history _ _ _ _ demo0 W F) as [E _]. rewrite (C156_install _ _ admin (fun _ => true) demo_args demo0 demo0_init) in E.
    exists admin, (fun _ => true), demo_args, demo0, memo_h'. split; [exact demo0_init|symmetry; exact E].
  - vm_compute. reflexivity.
  - vm_compute. reflexivity.
  - vm_compute. reflexivity.
Qed.
