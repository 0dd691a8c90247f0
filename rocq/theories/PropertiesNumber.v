(** C160: the numbers of the tokens are only names. *)
From Verif Require Import Base ModelPrincipal ModelState ModelIcrc7 ModelIcrc37 ModelManagement ModelLifecycle
  ModelQueries ModelStep ProofsItems ProofsManage ProofsCore Spec Scenario PropertiesRename.

(** ** Renumbering *)

(** Tokens, blocks, ledgers and calls under a renumbering of the tokens. *)
Definition num_tok (f : N -> N) (t : token) : token := mkTok (f (t_id t)) (t_owner t).
Definition num_tx (f : N -> N) (t : tx) : tx :=
  mkTx (tx_btype t) (tx_time t) (f <$> tx_tid t) (tx_from t) (tx_to t) (tx_spender t) (tx_exp t) (tx_meta t) (tx_memo t) (tx_created t).
Definition num (f : N -> N) (s : state) : state :=
  mkSt (cfg s) (perms s) (kmap f (num_tok f <$> tokens s)) (map f <$> by_owner s) (f (last_id s)) (redirs s) (subs s)
    (kmap f (tok_appr s)) (col_appr s) (kmap f (metas s)) (kmap f (windows s)) (guards s) (files s)
    (map (fun x => (fst x, num_tx f (snd x))) (log s)) (lcalls s) (pend s) (next_pend s).

Definition num_transfer (f : N -> N) (a : transfer_arg) : transfer_arg :=
  mkTransferArg (ta_to a) (f (ta_tid a)) (ta_memo a) (ta_from_sub a) (ta_created a).
Definition num_approve (f : N -> N) (a : approve_arg) : approve_arg := mkApproveArg (f (ap_tid a)) (ap_info a).
Definition num_revoke (f : N -> N) (a : revoke_arg) : revoke_arg :=
  mkRevokeArg (rv_spender a) (rv_from_sub a) (f (rv_tid a)) (rv_memo a) (rv_created a).
Definition num_from (f : N -> N) (a : transfer_from_arg) : transfer_from_arg :=
  mkTransferFromArg (tf_spender_sub a) (tf_from a) (tf_to a) (f (tf_tid a)) (tf_memo a) (tf_created a).
Definition num_op (f : N -> N) (o : op) : op :=
  match o with
  | OTransfer l => OTransfer (map (num_transfer f) l)
  | OApproveTokens l => OApproveTokens (map (num_approve f) l)
  | ORevokeTokens l => ORevokeTokens (map (num_revoke f) l)
  | OTransferFrom l => OTransferFrom (map (num_from f) l)
  | OUpdateMeta t kvs => OUpdateMeta (f t) kvs
  | OBurn t => OBurn (f t)
  | _ => o
  end.
(** The only number in an answer that is the number of a token is the one a mint or an update of metadata gives back. *)
Definition num_ans (f : N -> N) (a : answer) : answer := match a with ANat n => ANat (f n) | _ => a end.
(** A message under a renumbering: the log says of a renumbered block what it would have said of the block. [g] undoes [f]. *)
Definition num_env (g : N -> N) (e : env) : env := mkEnv (e_caller e) (e_now e) (fun k t => e_log e k (num_tx g t)).

(** A renumbering of the numbers below [L] (more numbers than [L] are never given out): it can be undone, 0 (which no token
    has, and under which the rate limiter counts the calls about the collection) stays 0, and numbers that can be stored stay
    numbers that can be stored. *)
Definition renumbering (L : N) (f g : N -> N) : Prop :=
  (forall i, g (f i) = i) /\ f 0 = 0 /\ (forall i, i < L -> i < two64 /\ f i < two64).
(** The numbers not given out yet keep their order: the next number becomes the next number. *)
Definition next_kept (L : N) (f : N -> N) (s : state) : Prop :=
  last_id s <= L /\ forall i, last_id s <= i <= L -> f i = f (last_id s) + (i - last_id s).
(** The call needs no number beyond [L]. *)
Definition room (L : N) (o : op) (s : state) : Prop :=
  match o with OMint l => last_id s + nlen l <= L | _ => True end.

(** ** One message *)

Section renumber.
Context (L : N) (f g : N -> N) (R : renumbering L f g).

Local Instance n_inj : Inj (=) (=) f.
Proof. intros x y E. destruct R as (G & _). rewrite <- (G x), <- (G y), E. reflexivity. Qed.
Lemma n_iff i j : f i = f j <-> i = j.
Proof. split; [apply n_inj|congruence]. Qed.
Lemma num_zero : f 0 = 0.
Proof. apply R. Qed.
Lemma num_tx_inv t : num_tx g (num_tx f t) = t.
Proof. destruct t as [? ? [x|]]; unfold num_tx; cbn; [|reflexivity]. destruct R as (-> & _). reflexivity. Qed.

Lemma kmap_at {A} (m : gmap N A) k : (kmap f m : gmap N A) !! f k = m !! k.
Proof. apply lookup_kmap. apply _. Qed.
Lemma kmap_put {A} (m : gmap N A) k x : <[f k := x]> (kmap f m : gmap N A) = kmap f (<[k := x]> m).
Proof. symmetry. apply kmap_insert. apply _. Qed.
Lemma kmap_del {A} (m : gmap N A) k : delete (f k) (kmap f m : gmap N A) = kmap f (delete k m).
Proof. symmetry. apply kmap_delete. apply _. Qed.
Lemma num_size {A} (m : gmap N A) : size (kmap f m : gmap N A) = size m.
Proof.
  induction m as [|k x m N IH] using map_ind; [rewrite kmap_empty; reflexivity|].
  rewrite <- kmap_put. rewrite !map_size_insert_None; [rewrite IH; reflexivity|exact N|]. rewrite kmap_at. exact N.
Qed.
Lemma num_filter (l : list N) x : filter (fun i => i <> f x) (map f l) = map f (filter (fun i => i <> x) l).
Proof.
  induction l as [|y l IH]; [reflexivity|]. cbn [map]. rewrite !filter_cons.
  destruct (decide (f y <> f x)) as [D|D], (decide (y <> x)) as [D'|D']; cbn [map]; rewrite IH; try reflexivity.
  - destruct D. f_equal. destruct (decide (y = x)) as [E|E]; [exact E|contradiction].
  - destruct D. intros E%n_inj. contradiction.
Qed.

Lemma token_num s t : tokens (num f s) !! f t = num_tok f <$> tokens s !! t.
Proof. cbn [tokens num]. rewrite kmap_at. apply lookup_fmap. Qed.
Lemma owner_num s t : owner_of (num f s) (f t) = owner_of s t.
Proof. unfold owner_of. rewrite token_num. destruct (tokens s !! t); reflexivity. Qed.

Lemma guard_num now t s :
  guard_sliding_window now (f t) (num f s) = (num f (fst (guard_sliding_window now t s)), snd (guard_sliding_window now t s)).
Proof.
  unfold guard_sliding_window. cbn [windows num]. rewrite kmap_at. destruct (_ <=? _); cbn [fst snd]; f_equal;
    unfold num, set_windows; cbn; f_equal; apply kmap_put.
Qed.
Lemma guard_zero now s :
  guard_sliding_window now 0 (num f s) = (num f (fst (guard_sliding_window now 0 s)), snd (guard_sliding_window now 0 s)).
Proof. rewrite <- num_zero at 1. apply guard_num. Qed.
Lemma msg_num now t s : rate_limit_msg now (f t) (num f s) = rate_limit_msg now t s.
Proof. unfold rate_limit_msg. cbn [windows num]. rewrite kmap_at. reflexivity. Qed.
Lemma msg_zero now s : rate_limit_msg now 0 (num f s) = rate_limit_msg now 0 s.
Proof. rewrite <- num_zero at 1. apply msg_num. Qed.

Lemma add_num e t s :
  add_transaction (num_env g e) (num_tx f t) (num f s) = (num f (fst (add_transaction e t s)), snd (add_transaction e t s)).
Proof.
  unfold add_transaction. cbn. rewrite num_tx_inv. destruct (e_log e (lcalls s) t); try reflexivity.
  cbn. f_equal. unfold num, set_log, set_lcalls. cbn. f_equal. rewrite map_app. reflexivity.
Qed.

Lemma default_num (o : option (list N)) : default [] (map f <$> o) = map f (default [] o).
Proof. destruct o; reflexivity. Qed.

Lemma move_num nft to s : move_token (num_tok f nft) to (num f s) = num f (move_token nft to s).
Proof.
  unfold move_token, num, set_tokens, set_by_owner. cbn. f_equal.
  - rewrite kmap_put. rewrite fmap_insert. reflexivity.
  - rewrite !lookup_fmap, !default_num. change [f (t_id nft)] with (map f [t_id nft]). rewrite <- map_app.
    rewrite <- (fmap_insert (map f)), lookup_fmap, default_num, num_filter, <- fmap_insert. reflexivity.
Qed.

Lemma items_num {A B} (P : state -> Prop) (F F' : state -> A -> option (state * B)) (h : A -> A) :
  (forall s a, P s -> F' (num f s) (h a) = match F s a with None => None | Some (s', r) => Some (num f s', r) end) ->
  (forall s a s' r, P s -> F s a = Some (s', r) -> P s') ->
  forall l s, P s -> run_items F' (num f s) (map h l) = match run_items F s l with None => None | Some (s', r) => Some (num f s', r) end.
Proof.
  intros E K l. induction l as [|a l IH]; intros s I; [reflexivity|]. cbn. rewrite E by exact I.
  destruct (F s a) as [[s1 b]|] eqn:F1; [|reflexivity].
  rewrite IH by exact (K _ _ _ _ I F1). destruct (run_items F s1 l) as [[s2 bs]|]; reflexivity.
Qed.

Definition follow {B} (F' F : option (state * B)) : Prop :=
  F' = match F with None => None | Some (s', r) => Some (num f s', r) end.

Ltac go_g := match goal with
  | |- context [guard_sliding_window ?n (f ?t) (num f ?s)] => rewrite (guard_num n t s);
      destruct (guard_sliding_window n t s) as [? []]; cbn [fst snd negb]; [|rewrite msg_num; reflexivity]
  | |- context [guard_sliding_window ?n 0 (num f ?s)] => rewrite (guard_zero n s);
      destruct (guard_sliding_window n 0 s) as [? []]; cbn [fst snd negb]; [|rewrite msg_zero; reflexivity]
  end.
Ltac tx_is t := match goal with
  | |- context [add_transaction (num_env g ?e) ?x _] => change x with (num_tx f t)
  end.

Lemma transfer_num e s a : follow (transfer_nft (num_env g e) (num f s) (num_transfer f a)) (transfer_nft e s a).
Proof.
  unfold follow, transfer_nft. cbn [ta_tid ta_to ta_memo ta_created e_now e_caller num_env num_transfer]. go_g.
  rewrite token_num. destruct (tokens s0 !! ta_tid a) as [nft|]; cbn [fmap option_fmap option_map]; [|reflexivity].
  change (check_memo (num f s0) (ta_memo a)) with (check_memo s0 (ta_memo a)). destruct (check_memo s0 (ta_memo a)) as [[]|]; try reflexivity.
  change (t_owner (num_tok f nft)) with (t_owner nft).
  destruct (negb _ || _ || _); [reflexivity|]. change (cfg (num f s0)) with (cfg s0).
  destruct (u64_setting _ _) as [drift|]; [|reflexivity]. destruct (_ <? _); [reflexivity|].
  destruct (u64_setting _ _) as [win|]; [|reflexivity]. destruct (_ <? _); [reflexivity|].
  fold (num_env g e). tx_is (transfer_tx (e_now e) nft a (default (e_now e) (ta_created a))).
  rewrite add_num. destruct (add_transaction e _ s0) as [s2 []]; cbn [fst snd]; try reflexivity.
  rewrite move_num. reflexivity.
Qed.

(** Every token is filed under its own number, and no number beyond [L] is in use. *)
Definition filed (s : state) : Prop := forall k t, tokens s !! k = Some t -> t_id t = k /\ k < L.

Lemma small k : k < L -> (k <? two64) = true /\ (f k <? two64) = true.
Proof. intros H. destruct R as (_ & _ & B). destruct (B k H). split; apply N.ltb_lt; assumption. Qed.

Lemma approve_num e s a : filed s ->
  follow (approve_token (num_env g e) (num f s) (num_approve f a)) (approve_token e s a).
Proof.
  intros W. unfold follow, approve_token. cbn [ap_tid ap_info e_now e_caller num_env num_approve].
  assert (T : tokens (fst (guard_sliding_window (e_now e) (ap_tid a) s)) = tokens s)
    by (unfold guard_sliding_window; destruct (_ <=? _); reflexivity).
  rewrite guard_num. destruct (guard_sliding_window (e_now e) (ap_tid a) s) as [s0 []]; cbn [fst snd negb] in *; [|rewrite msg_num; reflexivity].
  change (verify_approval_timing (num f s0)) with (verify_approval_timing s0).
  destruct (verify_approval_timing _ _ _); try reflexivity.
  rewrite owner_num. destruct (owner_of s0 (ap_tid a)) as [ow|] eqn:O; [|reflexivity].
  assert (S : ap_tid a < L).
  { unfold owner_of in O. rewrite T in O. destruct (tokens s !! ap_tid a) as [t|] eqn:E; [|discriminate]. apply (W _ _ E). }
  destruct (small _ S) as [S1 S2].
  destruct (negb _); [reflexivity|]. destruct (acc_eqb _ anonymous_account); [reflexivity|].
  change (cfg (num f s0)) with (cfg s0). cbn [tok_appr num]. rewrite kmap_at.
  destruct (match tok_appr s0 !! ap_tid a with Some _ => _ | None => _ end); [reflexivity|].
  fold (num_env g e). fold (num f s0).
  tx_is (approve_tx "37approve" (e_now e) (Some (ap_tid a)) (mkAcc (e_caller e) (ai_from_sub (ap_info a))) (ap_info a)).
  rewrite add_num. destruct (add_transaction e _ s0) as [s2 []]; cbn [fst snd]; try reflexivity.
  rewrite S1, S2. f_equal. f_equal. unfold num, set_tok_appr. cbn. f_equal. rewrite kmap_at. apply kmap_put.
Qed.

Lemma approve_tokens_same e s a s' r : approve_token e s a = Some (s', r) -> tokens s' = tokens s.
Proof.
  unfold approve_token. assert (T : tokens (fst (guard_sliding_window (e_now e) (ap_tid a) s)) = tokens s)
    by (unfold guard_sliding_window; destruct (_ <=? _); reflexivity).
  destruct (guard_sliding_window (e_now e) (ap_tid a) s) as [s0 []]; cbn [fst snd negb] in *; [|intros [= <- _]; exact T].
  destruct (verify_approval_timing _ _ _); try (intros [= <- _]; exact T).
  destruct (owner_of _ _); [|intros [= <- _]; exact T]. destruct (negb _); [intros [= <- _]; exact T|].
  destruct (acc_eqb _ anonymous_account); [intros [= <- _]; exact T|].
  destruct (match tok_appr s0 !! ap_tid a with Some _ => _ | None => _ end); [intros [= <- _]; exact T|].
  match goal with |- context [add_transaction e ?x s0] =>
    assert (T2 : tokens (fst (add_transaction e x s0)) = tokens s0) by (unfold add_transaction; destruct (e_log _ _ _); reflexivity);
    destruct (add_transaction e x s0) as [s2 ans] end.
  cbn [fst] in T2. rewrite T in T2. destruct ans; try (intros [= <- _]; exact T2).
  destruct (_ <? _); [|discriminate]. intros [= <- _]. exact T2.
Qed.

Lemma has_nfts_num s p : has_nfts (num f s) p = has_nfts s p.
Proof.
  unfold has_nfts. apply eq_true_iff_eq. rewrite !existsb_exists. split.
  - intros ([k t] & I & B). apply elem_of_list_In, elem_of_map_to_list in I. cbn [tokens num] in I.
    apply lookup_kmap_Some in I as (k' & -> & I); [|apply _]. rewrite lookup_fmap in I.
    destruct (tokens s !! k') as [t'|] eqn:E; [|discriminate]. injection I as <-.
    exists (k', t'). split; [apply elem_of_list_In, elem_of_map_to_list; exact E|exact B].
  - intros ([k t] & I & B). apply elem_of_list_In, elem_of_map_to_list in I.
    exists (f k, num_tok f t). split; [apply elem_of_list_In, elem_of_map_to_list|exact B]. rewrite token_num, I. reflexivity.
Qed.

Lemma approve_coll_num e s i : follow (approve_collection (num_env g e) (num f s) i) (approve_collection e s i).
Proof.
  unfold follow, approve_collection. cbn [e_now e_caller num_env]. go_g.
  change (verify_approval_timing (num f s0)) with (verify_approval_timing s0).
  destruct (verify_approval_timing _ _ _); try reflexivity.
  destruct (acc_eqb _ anonymous_account); [reflexivity|].
  rewrite has_nfts_num. destruct (negb _); [reflexivity|]. change (cfg (num f s0)) with (cfg s0). change (col_appr (num f s0)) with (col_appr s0).
  destruct (match col_appr s0 !! _ with Some _ => _ | None => _ end); [reflexivity|].
  fold (num_env g e).
  tx_is (approve_tx "37approve_coll" (e_now e) None (mkAcc (e_caller e) (ai_from_sub i)) i).
  rewrite add_num. destruct (add_transaction e _ s0) as [s2 []]; cbn [fst snd]; reflexivity.
Qed.

Lemma revoke_num e s a : follow (revoke_token_approvals (num_env g e) (num f s) (num_revoke f a)) (revoke_token_approvals e s a).
Proof.
  unfold follow, revoke_token_approvals. cbn [rv_spender rv_from_sub rv_tid rv_memo rv_created e_now e_caller num_env num_revoke].
  change (verify_opt_timing (num f s)) with (verify_opt_timing s). destruct (verify_opt_timing _ _ _); try reflexivity.
  rewrite owner_num. destruct (owner_of s (rv_tid a)) as [ow|]; [|reflexivity].
  destruct (negb _); [reflexivity|]. cbn [tok_appr num]. rewrite kmap_at. destruct (tok_appr s !! rv_tid a) as [m|]; [|reflexivity].
  fold (num_env g e). fold (num f s).
  tx_is (revoke_tx "37revoke" (e_now e) (Some (rv_tid a)) (mkAcc (e_caller e) (rv_from_sub a)) (rv_spender a) (rv_memo a) (rv_created a)).
  rewrite add_num. destruct (add_transaction e _ s) as [s2 []]; cbn [fst snd]; try reflexivity.
  f_equal. f_equal. unfold num, set_tok_appr. cbn. f_equal. apply kmap_put.
Qed.

Lemma revoke_coll_num e s a : follow (revoke_collection_approvals (num_env g e) (num f s) a) (revoke_collection_approvals e s a).
Proof.
  unfold follow, revoke_collection_approvals. cbn [e_now e_caller num_env]. go_g.
  change (verify_opt_timing (num f s0)) with (verify_opt_timing s0). destruct (verify_opt_timing _ _ _); try reflexivity.
  change (col_appr (num f s0)) with (col_appr s0). destruct (col_appr s0 !! _) as [m|]; [|reflexivity].
  fold (num_env g e).
  tx_is (revoke_tx "37revoke_coll" (e_now e) None (mkAcc (e_caller e) None) (rc_spender a) (rc_memo a) (rc_created a)).
  rewrite add_num. destruct (add_transaction e _ s0) as [s2 []]; cbn [fst snd]; reflexivity.
Qed.

Lemma drop_num now k sp s :
  set_tok_appr (drop_expired now (f k) sp (tok_appr (num f s))) (num f s) = num f (set_tok_appr (drop_expired now k sp (tok_appr s)) s).
Proof.
  unfold drop_expired. cbn [tok_appr num]. rewrite kmap_at. destruct (tok_appr s !! k) as [m|]; [|reflexivity].
  destruct (m !! sp) as [[x ap]|]; [|reflexivity]. destruct (unexpired now ap); [reflexivity|].
  unfold num, set_tok_appr. cbn. f_equal. apply kmap_put.
Qed.

Lemma transfer_from_num e s a : follow (transfer_from (num_env g e) (num f s) (num_from f a)) (transfer_from e s a).
Proof.
  unfold follow, transfer_from. cbn [tf_spender_sub tf_from tf_to tf_tid tf_memo tf_created e_now e_caller num_env num_from]. go_g.
  change (verify_opt_timing (num f s0)) with (verify_opt_timing s0). destruct (verify_opt_timing _ _ _); try reflexivity.
  rewrite token_num. destruct (tokens s0 !! tf_tid a) as [nft|]; cbn [fmap option_fmap option_map]; [|reflexivity].
  destruct (acc_eqb (tf_from a) _); [reflexivity|]. destruct (acc_eqb _ anonymous_account); [reflexivity|].
  fold (num_env g e). rewrite !check_token_approval_eq, !check_collection_approval_eq. change (t_owner (num_tok f nft)) with (t_owner nft).
  rewrite drop_num. change (tok_appr (num f s0)) with (kmap f (tok_appr s0) : gmap N appmap). rewrite kmap_at.
  set (s1 := set_tok_appr (drop_expired _ _ _ _) s0). change (col_appr (num f s1)) with (col_appr s1).
  change (set_col_appr (drop_expired ?n ?k ?x (col_appr s1)) (num f s1)) with (num f (set_col_appr (drop_expired n k x (col_appr s1)) s1)).
  set (s2 := set_col_appr (drop_expired _ _ _ _) s1).
  destruct (negb _ || _); [reflexivity|].
  tx_is (transfer_from_tx (e_now e) a (mkAcc (e_caller e) (tf_spender_sub a))).
  rewrite add_num. destruct (add_transaction e _ s2) as [s4 []]; cbn [fst snd]; try reflexivity.
  rewrite move_num. f_equal. f_equal. set (s5 := move_token nft (tf_to a) s4).
  unfold num, set_tok_appr, set_col_appr. cbn. f_equal. apply kmap_del.
Qed.

(** Management calls. *)
Definition follow_ans {A} (h : A -> A) (F' F : option (state * mres A)) : Prop :=
  F' = match F with
       | None => None
       | Some (s', MOk x) => Some (num f s', MOk (h x))
       | Some (s', r) => Some (num f s', r)
       end.

Lemma lock_num {A} (h : A -> A) e s (body' body : state -> option (state * mres A)) :
  (forall s1, tokens s1 = tokens s -> last_id s1 = last_id s -> follow_ans h (body' (num f s1)) (body s1)) ->
  follow_ans h (with_lock (num_env g e) (num f s) body') (with_lock e s body).
Proof.
  intros B. unfold follow_ans, with_lock. cbn [e_caller num_env]. unfold guard_new. change (guards (num f s)) with (guards s).
  destruct (_ <=? _)%nat; [reflexivity|].
  change (set_guards ?x (num f s)) with (num f (set_guards x s)). set (s1 := set_guards _ s). rewrite (B s1) by reflexivity.
  destruct (body s1) as [[s2 []]|]; reflexivity.
Qed.
Lemma permission_num {A} (h : A -> A) q m e s (b' b : option (state * mres A)) :
  follow_ans h b' b -> follow_ans h (with_permission q m (num_env g e) (num f s) b') (with_permission q m e s b).
Proof.
  intros B. unfold follow_ans, with_permission. cbn [e_caller num_env]. change (has_permission (num f s)) with (has_permission s).
  destruct (has_permission _ _ _); [exact B|reflexivity].
Qed.

Lemma check_memos_num s l : check_memos (num f s) l = check_memos s l.
Proof. induction l as [|r l IH]; [reflexivity|]. cbn. rewrite IH. reflexivity. Qed.

Lemma add_metadata_num k kvs m : k < L ->
  add_metadata (f k) kvs (kmap f m) = (fun x => kmap f x : gmap N (gmap string value)) <$> add_metadata k kvs m.
Proof.
  intros H. destruct (small k H) as [S1 S2]. revert m. induction kvs as [|[x v] r IH]; intros m; [reflexivity|].
  cbn. unfold insert_data. rewrite S1, S2. destruct (encodable v); cbn [andb]; [|reflexivity].
  rewrite kmap_at, kmap_put. apply IH.
Qed.

(** [f] counts on from [k] for [n] numbers. *)
Definition counts (k n : N) : Prop := forall i, i <= n -> f (k + i) = f k + i.
Lemma counts_step k n : counts k (1 + n) -> f (k + 1) = f k + 1 /\ counts (k + 1) n.
Proof.
  intros C. assert (E : f (k + 1) = f k + 1) by (apply C; lia). split; [exact E|]. intros i Hi.
  rewrite E, <- N.add_assoc, <- N.add_assoc. apply C. lia.
Qed.

Lemma mint_metadata_num k l m : k + nlen l <= L -> counts k (nlen l) ->
  mint_metadata (f k) l (kmap f m) = (fun x => kmap f x : gmap N (gmap string value)) <$> mint_metadata k l m.
Proof.
  revert k m. induction l as [|r l IH]; intros k m H C; [reflexivity|].
  assert (E : nlen (r :: l) = 1 + nlen l) by (unfold nlen; cbn [length]; lia). rewrite E in *. apply counts_step in C as [C1 C2].
  cbn. rewrite add_metadata_num by lia. destruct (add_metadata k (mr_meta r) m) as [m'|]; cbn; [|reflexivity].
  rewrite <- C1. apply IH; [lia|exact C2].
Qed.
Lemma mint_log_num e k l s : counts k (nlen l) ->
  mint_log (num_env g e) (f k) l (num f s) = (num f (fst (mint_log e k l s)), snd (mint_log e k l s)).
Proof.
  revert k s. induction l as [|r l IH]; intros k s C; [reflexivity|].
  assert (E : nlen (r :: l) = 1 + nlen l) by (unfold nlen; cbn [length]; lia). rewrite E in *. apply counts_step in C as [C1 C2].
  cbn [mint_log]. tx_is (mint_tx (e_now e) k r). rewrite add_num. destruct (add_transaction e _ s) as [s1 []]; cbn [fst snd]; try reflexivity.
  rewrite <- C1. apply IH. exact C2.
Qed.
Lemma mint_insert_num k l s : counts k (nlen l) -> mint_insert (f k) l (num f s) = num f (mint_insert k l s).
Proof.
  revert k s. induction l as [|r l IH]; intros k s C; [reflexivity|].
  assert (E : nlen (r :: l) = 1 + nlen l) by (unfold nlen; cbn [length]; lia). rewrite E in *. apply counts_step in C as [C1 C2].
  cbn [mint_insert]. rewrite <- C1, <- (IH _ _ C2). f_equal. unfold num, set_tokens, set_by_owner. cbn. f_equal.
  - change (mkTok (f k) (mr_owner r)) with (num_tok f (mkTok k (mr_owner r))). rewrite kmap_put, fmap_insert. reflexivity.
  - rewrite lookup_fmap, default_num. change [f k] with (map f [k]). rewrite <- map_app, <- fmap_insert. reflexivity.
Qed.

Lemma mint_num e s l : last_id s + nlen l <= L -> counts (last_id s) (nlen l) ->
  follow_ans f (mint (num_env g e) (num f s) l) (mint e s l).
Proof.
  intros H C. unfold mint. apply permission_num, lock_num. intros s1 _ K. unfold follow_ans, mint_body.
  change (cfg (num f s1)) with (cfg s1). cbn [last_id tokens metas num]. rewrite num_size, map_size_fmap, check_memos_num, K.
  destruct (_ <? _); [reflexivity|]. destruct (_ <? _); [reflexivity|]. destruct (check_memos s1 l) as [[]|]; try reflexivity.
  rewrite mint_metadata_num by assumption. destruct (mint_metadata _ _ _) as [m|]; cbn [fmap option_fmap option_map]; [|reflexivity].
  change (set_metas (kmap f m) (num f s1)) with (num f (set_metas m s1)). rewrite mint_log_num by exact C.
  destruct (mint_log e _ l _) as [s2 [msg|]]; cbn [fst snd]; [reflexivity|].
  replace (f (last_id s) + nlen l) with (f (last_id s + nlen l)) by (apply C; lia).
  change (set_last_id (f ?x) (num f s2)) with (num f (set_last_id x s2)).
  rewrite mint_insert_num by exact C. reflexivity.
Qed.

Lemma meta_value_num k m : meta_value (f k) (kmap f m) = meta_value k m.
Proof. unfold meta_value. rewrite kmap_at. reflexivity. Qed.

Lemma update_num e s t kvs : filed s ->
  follow_ans f (update_nft_metadata (num_env g e) (num f s) (f t) kvs) (update_nft_metadata e s t kvs).
Proof.
  intros W. unfold update_nft_metadata. apply permission_num, lock_num. intros s1 T _. unfold follow_ans, update_nft_metadata_body.
  rewrite token_num. destruct (tokens s1 !! t) as [tok|] eqn:E; cbn [fmap option_fmap option_map]; [|reflexivity].
  assert (X : t_id tok = t /\ t < L) by (apply W; rewrite <- T; exact E). destruct X as [X1 X2].
  unfold replace_metadata. cbn [t_id num_tok]. rewrite X1. change (metas (num f s1)) with (kmap f (metas s1) : gmap N (gmap string value)).
  rewrite kmap_del, add_metadata_num by exact X2. destruct (add_metadata _ _ _) as [m|]; cbn [fmap option_fmap option_map]; [|reflexivity].
  change (metas (set_metas (kmap f m) (num f s1))) with (kmap f m : gmap N (gmap string value)). rewrite !meta_value_num.
  change (set_metas (kmap f m) (num f s1)) with (num f (set_metas m s1)). change (metas (set_metas m s1)) with m.
  tx_is (update_meta_tx e t (meta_value t (metas s1)) (meta_value t m)).
  rewrite add_num. destruct (add_transaction e _ _) as [s2 []]; cbn [fst snd]; try reflexivity.
  f_equal. f_equal. unfold num, set_tokens. cbn. f_equal. rewrite kmap_put, fmap_insert. reflexivity.
Qed.

Lemma burn_num e s t : follow_ans id (burn_nft (num_env g e) (num f s) (f t)) (burn_nft e s t).
Proof.
  unfold burn_nft. apply lock_num. intros s1 _ _. unfold follow_ans, burn_body. cbn [e_caller e_now num_env].
  rewrite token_num. destruct (tokens s1 !! t) as [tok|] eqn:T; cbn [fmap option_fmap option_map]; [|reflexivity].
  change (t_owner (num_tok f tok)) with (t_owner tok). destruct (negb _); [reflexivity|]. fold (num_env g e).
  tx_is (burn_tx (e_now e) t tok).
  rewrite add_num. destruct (add_transaction e _ _) as [s2 []]; cbn [fst snd]; try reflexivity.
  f_equal. f_equal. unfold num, set_tokens. cbn. f_equal. rewrite kmap_del, fmap_delete. reflexivity.
Qed.

Lemma entry_num e s (F' F : state -> state * (err + pending)) :
  (forall s, F' (num f s) = (num f (fst (F s)), snd (F s))) ->
  upload_entry (num_env g e) (num f s) F' = (num f (fst (upload_entry e s F)), snd (upload_entry e s F)).
Proof.
  intros E. unfold upload_entry. cbn [e_caller num_env]. change (has_permission (num f s)) with (has_permission s).
  destruct (has_permission _ _ _); [|reflexivity]. unfold guard_new. change (guards (num f s)) with (guards s).
  destruct (_ <=? _)%nat; [reflexivity|]. change (set_guards ?x (num f s)) with (num f (set_guards x s)). rewrite E.
  destruct (F _) as [s2 [x|p]]; reflexivity.
Qed.

Lemma continue_num now p r s : continue now p r (num f s) = (num f (fst (continue now p r s)), snd (continue now p r s)).
Proof. destruct p, r; reflexivity. Qed.
Lemma resume_num now id r s : resume now id r (num f s) = (num f (fst (resume now id r s)), snd (resume now id r s)).
Proof.
  unfold resume. change (pend (num f s)) with (pend s). destruct (pend s !! id) as [p|]; [|reflexivity].
  rewrite continue_num. destruct (continue now p r s) as [s1 a]; reflexivity.
Qed.

(** ** The theorem *)

Lemma step_num e o s : filed s -> next_kept L f s -> room L o s ->
  step (num_env g e) (num_op f o) (num f s) = (num f (fst (step e o s)), num_ans f (snd (step e o s))).
Proof.
  intros W [K1 K2] M. destruct o; cbn [num_op step].
  - assert (E : follow (icrc7_transfer (num_env g e) (num f s) (map (num_transfer f) args)) (icrc7_transfer e s args)).
    { unfold follow, icrc7_transfer. destruct args as [|a l]; [reflexivity|].
      cbn [map]. change (cfg (num f s)) with (cfg s). cbn [e_caller num_env]. destruct (usize_try _) as [mx|]; [|reflexivity].
      unfold nlen. cbn [length]. rewrite map_length. destruct (_ && _); [reflexivity|].
      destruct (bool_decide _); [reflexivity|]. fold (num_env g e).
      pose proof (take_n_map (num_transfer f) mx (a :: l)) as T.
      cbn [map] in T. rewrite T. apply (items_num (fun _ => True)); auto. intros; apply transfer_num. }
    rewrite E. destruct (icrc7_transfer e s args) as [[]|]; reflexivity.
  - unfold icrc37_approve_tokens. rewrite (items_num filed (approve_token e)); [| | |exact W].
    + destruct (run_items _ _ _) as [[]|]; reflexivity.
    + intros s1 a W1. apply approve_num. exact W1.
    + intros s1 a s' r W1 E. apply approve_tokens_same in E. unfold filed. rewrite E. exact W1.
  - unfold icrc37_approve_collection. rewrite <- (map_id args) at 1. rewrite (items_num (fun _ => True) (approve_collection e)); auto.
    + destruct (run_items _ _ _) as [[]|]; reflexivity.
    + intros; apply approve_coll_num.
  - unfold icrc37_revoke_token_approvals. destruct args as [|a l]; [reflexivity|]. cbn [map rv_tid e_now num_env num_revoke]. go_g.
    fold (num_env g e). fold (num_revoke f a). change (cfg (num f s0)) with (cfg s0).
    pose proof (take_n_map (num_revoke f) (usize_limit (c_max_revoke (cfg s0))) (a :: l)) as T.
    cbn [map] in T. rewrite T. rewrite (items_num (fun _ => True) (revoke_token_approvals e)); auto.
    + destruct (run_items _ _ _) as [[]|]; reflexivity.
    + intros; apply revoke_num.
  - unfold icrc37_revoke_collection_approvals. change (cfg (num f s)) with (cfg s).
    rewrite <- (map_id (take_n _ args)) at 1. rewrite (items_num (fun _ => True) (revoke_collection_approvals e)); auto.
    + destruct (run_items _ _ _) as [[]|]; reflexivity.
    + intros; apply revoke_coll_num.
  - unfold icrc37_transfer_from. rewrite (items_num (fun _ => True) (transfer_from e)); auto.
    + destruct (run_items _ _ _) as [[]|]; reflexivity.
    + intros; apply transfer_from_num.
  - assert (E : follow_ans id (update_collection_metadata (num_env g e) (num f s) u) (update_collection_metadata e s u))
      by (apply permission_num, lock_num; intros; reflexivity).
    rewrite E. destruct (update_collection_metadata e s u) as [[? []]|]; reflexivity.
  - rewrite mint_num; [|exact M|].
    + destruct (mint e s reqs) as [[? []]|]; reflexivity.
    + intros i Hi. cbn in M. rewrite K2 by lia. f_equal. lia.
  - rewrite update_num by exact W. destruct (update_nft_metadata e s tid kvs) as [[? []]|]; reflexivity.
  - rewrite burn_num. destruct (burn_nft e s tid) as [[? []]|]; reflexivity.
  - assert (E : follow_ans id (grant_permission (num_env g e) (num f s) p perm) (grant_permission e s p perm))
      by (apply permission_num, lock_num; intros; reflexivity).
    rewrite E. destruct (grant_permission e s p perm) as [[? []]|]; reflexivity.
  - assert (E : follow_ans id (revoke_permission (num_env g e) (num f s) p perm) (revoke_permission e s p perm))
      by (apply permission_num, lock_num; intros; reflexivity).
    rewrite E. destruct (revoke_permission e s p perm) as [[? []]|]; reflexivity.
  - unfold init_upload. rewrite (entry_num e s _ (init_upload_first e path size)).
    + destruct (upload_entry e s _) as [? [[]|]]; reflexivity.
    + intros s1. unfold init_upload_first. change (contains_path (num f s1) path) with (contains_path s1 path).
      destruct (contains_path _ _); [reflexivity|]. destruct (_ <? _); reflexivity.
  - unfold store_chunk. rewrite (entry_num e s _ (store_chunk_first e path)).
    + destruct (upload_entry e s _) as [? [[]|]]; reflexivity.
    + intros s1. unfold store_chunk_first. cbn [files subs num]. destruct (files s1 !! path) as [u|]; [|reflexivity].
      destruct (u_state u); try reflexivity; destruct (bool_decide _); reflexivity.
  - unfold finalize_upload. rewrite (entry_num e s _ (finalize_upload_first e path)).
    + destruct (upload_entry e s _) as [? [[]|]]; reflexivity.
    + intros s1. unfold finalize_upload_first. cbn [files subs num]. destruct (files s1 !! path) as [u|]; [|reflexivity].
      destruct (u_state u); try reflexivity; destruct (bool_decide _); reflexivity.
  - unfold cancel_upload. rewrite (entry_num e s _ (cancel_upload_first e path)).
    + destruct (upload_entry e s _) as [? [[]|]]; reflexivity.
    + intros s1. unfold cancel_upload_first. cbn [files subs num]. destruct (files s1 !! path) as [u|]; [|reflexivity].
      destruct (u_state u); try reflexivity; destruct (bool_decide _); reflexivity.
  - cbn [e_now num_env]. rewrite resume_num. destruct (resume (e_now e) id r s) as [? [[]|]]; reflexivity.
  - reflexivity.
Qed.

End renumber.

Lemma wf_filed L s : wf s -> last_id s <= L -> filed L s.
Proof. intros W H k t E. split; [apply (wf_id _ W _ _ E)|]. destruct (wf_lt _ W _ _ E). lia. Qed.

Lemma step_last e o s :
  last_id (fst (step e o s)) = last_id s \/
  exists l, o = OMint l /\ last_id (fst (step e o s)) = last_id s + nlen l.
Proof.
  destruct (decide (is_mint o)) as [M|M]; [|left; apply step_last_id, M]. destruct o; try destruct M.
  destruct (step e (OMint reqs) s) as [s' a] eqn:E. destruct (minted_step _ _ _ _ _ E) as [_ H]. cbn [fst]. rewrite H.
  destruct a; try (left; unfold minted_ids; cbn; lia). right. exists reqs. split; [reflexivity|].
  unfold minted_ids, nlen. cbn. rewrite count_from_length. reflexivity.
Qed.

Lemma next_kept_step L f e o s : next_kept L f s -> room L o s -> next_kept L f (fst (step e o s)).
Proof.
  intros [K1 K2] M. destruct (step_last e o s) as [E|(l & -> & E)]; unfold next_kept; rewrite E; [split; assumption|].
  cbn in M. split; [exact M|]. intros i Hi. rewrite (K2 i), (K2 (last_id s + nlen l)) by lia. lia.
Qed.

(** A renumbered message on a renumbered ledger leaves the renumbered ledger and gets the same answer; where the answer is the
    number of a token it is the renumbered one.  So no token is treated differently for its number. *)
Theorem C160_step L f g e o s :
  reachable s -> renumbering L f g -> next_kept L f s -> room L o s ->
  step (num_env g e) (num_op f o) (num f s) = (num f (fst (step e o s)), num_ans f (snd (step e o s))).
Proof.
  intros Re R K M. apply (step_num L f g R); [|exact K|exact M]. apply wf_filed; [apply reachable_wf, Re|apply K].
Qed.
Print Assumptions C160_step.

(** No call of the history needs a number beyond [L]. *)
Fixpoint rooms (L : N) (h : history) (s : state) : Prop :=
  match h with
  | [] => True
  | (e, o) :: r => room L o s /\ rooms L r (fst (step e o s))
  end.

(** So it is for whole histories, with all the answers. *)
Theorem C160_history L f g h s :
  reachable s -> renumbering L f g -> next_kept L f s -> rooms L h s ->
  let h' := map (fun eo => (num_env g (fst eo), num_op f (snd eo))) h in
  run h' (num f s) = num f (run h s) /\
  map ev_ans (trace h' (num f s)) = map (fun ev => num_ans f (ev_ans ev)) (trace h s).
Proof.
  intros Re R. cbv zeta. apply reachable_wf in Re. revert s Re. induction h as [|[e o] h IH]; intros s W K M; [split; reflexivity|].
  destruct M as [M1 M2]. cbn [map run trace fst snd].
  pose proof (step_num L f g R e o s (wf_filed _ _ W (proj1 K)) K M1) as E. rewrite E. cbn [fst snd].
  pose proof (step_wf e o s W) as W'. pose proof (next_kept_step L f e o s K M1) as K'.
  destruct (step e o s) as [s1 a]. cbn [fst snd map ev_ans] in *.
  destruct (IH s1 W' K' M2) as [E1 E2]. split; [exact E1|]. rewrite E2. reflexivity.
Qed.
Print Assumptions C160_history.

(** ** Reads *)

(** What is read of the renumbered ledger is what is read of the ledger. *)
Theorem C160_reads L f g s :
  renumbering L f g ->
  let s' := num f s in
  (forall ids, icrc7_owner_of s' (map f ids) = icrc7_owner_of s ids) /\
  (forall l, icrc7_balance_of s' l = icrc7_balance_of s l) /\
  (forall ids, icrc7_token_metadata s' (map f ids) = icrc7_token_metadata s ids) /\
  icrc7_collection_metadata s' = icrc7_collection_metadata s /\
  (forall now l, icrc37_is_approved s' now (map (fun a => mkIsApproved (ia_spender a) (ia_from_sub a) (f (ia_tid a))) l) =
     icrc37_is_approved s now l) /\
  (forall order t prev tk, icrc37_get_token_approvals order s' (f t) prev tk = icrc37_get_token_approvals order s t prev tk) /\
  (forall order a prev tk, icrc37_get_collection_approvals order s' a prev tk = icrc37_get_collection_approvals order s a prev tk) /\
  (forall c p q, query_has_permission s' c p q = query_has_permission s c p q) /\
  (forall c p, get_user_permissions s' c p = get_user_permissions s c p) /\
  (forall c, get_all_storage_subcanisters s' c = get_all_storage_subcanisters s c) /\
  (forall c k, query_upload_status s' c k = query_upload_status s c k).
Proof.
  intros R s'. subst s'. splits; try (intros; reflexivity).
  - intros ids. unfold icrc7_owner_of, batch_query. change (query_limit (num f s)) with (query_limit s). unfold nlen. rewrite map_length.
    destruct (_ <? _); [reflexivity|]. f_equal. rewrite map_map. apply map_ext. intros t. apply (owner_num L f g R).
  - intros l. unfold icrc7_balance_of, batch_query. change (query_limit (num f s)) with (query_limit s).
    destruct (_ <? _); [reflexivity|]. f_equal. apply map_ext. intros a. unfold tokens_balance_of. cbn [by_owner num].
    rewrite lookup_fmap. destruct (by_owner s !! akey a) as [x|]; cbn; [unfold nlen; rewrite map_length|]; reflexivity.
  - intros ids. unfold icrc7_token_metadata, batch_query. change (query_limit (num f s)) with (query_limit s). unfold nlen. rewrite map_length.
    destruct (_ <? _); [reflexivity|]. f_equal. rewrite map_map. apply map_ext. intros t. rewrite (token_num L f g R).
    destruct (tokens s !! t) as [k|]; cbn; [|reflexivity]. f_equal. unfold token_metadata. cbn [metas num t_id num_tok].
    rewrite (kmap_at L f g R). reflexivity.
  - unfold icrc7_collection_metadata, total_supply. cbn [tokens cfg num]. rewrite (num_size L f g R), map_size_fmap. reflexivity.
  - intros now l. unfold icrc37_is_approved. rewrite map_map. apply map_ext. intros a. unfold is_approved. cbn [ia_spender ia_from_sub ia_tid].
    rewrite (owner_num L f g R). cbn [tok_appr num]. rewrite (kmap_at L f g R). reflexivity.
  - intros order t prev tk. unfold icrc37_get_token_approvals, token_approvals_entries. cbn [tok_appr num].
    rewrite (kmap_at L f g R). reflexivity.
Qed.
Print Assumptions C160_reads.

Lemma kmap_ids L f g (m : gmap N token) (h : token -> token) : renumbering L f g ->
  map_to_list (kmap f (h <$> m) : gmap N token) ≡ₚ map (fun kt => (f (fst kt), h (snd kt))) (map_to_list m).
Proof.
  intros R. pose proof (n_inj L f g R) as I. unfold kmap. rewrite map_to_list_to_map.
  - rewrite map_to_list_fmap. change (map ?q ?l) with (q <$> l). rewrite <- !list_fmap_compose.
    apply reflexive_eq, list_fmap_ext. intros ? [] ?; reflexivity.
  - rewrite <- list_fmap_compose. rewrite (list_fmap_ext _ (f ∘ fst)) by (intros ? [] ?; reflexivity).
    rewrite list_fmap_compose. apply NoDup_fmap_2; [apply _|]. apply NoDup_fst_map_to_list.
Qed.

(** The pages of tokens show the renumbered tokens, if the renumbering keeps the order. *)
Theorem C160_pages L f g s :
  renumbering L f g -> (forall i j, f i <= f j <-> i <= j) ->
  (forall prev tk, icrc7_tokens (num f s) (f <$> prev) tk = option_map (map f) (icrc7_tokens s prev tk)) /\
  (forall a prev tk, icrc7_tokens_of (num f s) a (f <$> prev) tk = option_map (map f) (icrc7_tokens_of s a prev tk)).
Proof.
  intros R O.
  assert (P : forall ids ids' prev tk, ids' ≡ₚ map f ids -> page_of ids' (f <$> prev) tk = map f (page_of ids prev tk)).
  { intros ids ids' prev tk E. unfold page_of. rewrite (sort_perm _ _ E), (merge_sort_map N.le f O). set (l := merge_sort N.le ids).
    assert (D : default 0 (f <$> prev) = f (default 0 prev)) by (destruct prev; [reflexivity|symmetry; apply R]). rewrite D.
    assert (G : forall x, position_gt (f x) (map f l) = position_gt x l).
    { intros x. induction l as [|y r IH]; [reflexivity|]. cbn. rewrite IH.
      assert (B : (f x <? f y) = (x <? y)); [|rewrite B; reflexivity].
      apply eq_true_iff_eq. rewrite !N.ltb_lt, !N.lt_nge, O. reflexivity. }
    rewrite G, skipn_map, take_n_map. reflexivity. }
  split.
  - intros prev tk. unfold icrc7_tokens. change (take_ok (num f s) tk) with (take_ok s tk). destruct (take_ok s tk); [|reflexivity].
    cbn. f_equal. apply P. cbn [tokens num]. rewrite (kmap_ids L f g _ _ R), !map_map. reflexivity.
  - intros a prev tk. unfold icrc7_tokens_of. change (take_ok (num f s) tk) with (take_ok s tk). destruct (take_ok s tk); [|reflexivity].
    cbn. f_equal. apply P. unfold tokens_ids_of_account. cbn [tokens num]. rewrite (kmap_ids L f g _ _ R).
    induction (map_to_list (tokens s)) as [|[k t] l IH]; [reflexivity|]. cbn [map fst snd]. rewrite !filter_cons. cbn [snd num_tok t_owner].
    destruct (decide _); cbn; [rewrite IH; reflexivity|exact IH].
Qed.
Print Assumptions C160_pages.

(** ** Special cases *)

(** All numbers moved up by [c]. *)
Definition up (c i : N) : N := if i =? 0 then 0 else i + c.
Definition down (c i : N) : N := if i =? 0 then 0 else i - c.

(** A ledger that had given out [c] more numbers before would do the same. *)
Theorem C160_later c L s :
  reachable s -> last_id s <= L -> L + c <= two64 ->
  renumbering L (up c) (down c) /\ next_kept L (up c) s /\ (forall i j, up c i <= up c j <-> i <= j).
Proof.
  intros Re H B. pose proof (wf_pos _ (reachable_wf _ Re)) as P. unfold renumbering, next_kept, up, down.
  split; [|split; [split; [exact H|]|]].
  - split; [|split; [reflexivity|]].
    + intros i. destruct (N.eqb_spec i 0) as [->|D]; [reflexivity|]. destruct (N.eqb_spec (i + c) 0); lia.
    + intros i Hi. destruct (N.eqb_spec i 0); lia.
  - intros i Hi. destruct (N.eqb_spec i 0), (N.eqb_spec (last_id s) 0); lia.
  - intros i j. destruct (N.eqb_spec i 0), (N.eqb_spec j 0); lia.
Qed.
Print Assumptions C160_later.

(** Two numbers exchanged. *)
Definition exchange (a b i : N) : N := if i =? a then b else if i =? b then a else i.

(** Two tokens could have each other's number. *)
Theorem C160_exchange a b L s :
  0 < a < last_id s -> 0 < b < last_id s -> last_id s <= L <= two64 ->
  renumbering L (exchange a b) (exchange a b) /\ next_kept L (exchange a b) s.
Proof.
  intros A B H. unfold renumbering, next_kept, exchange.
  split; [split; [|split]|split; [apply H|]].
  - intros i. destruct (N.eqb_spec i a) as [->|D].
    + destruct (N.eqb_spec b a) as [->|D2]; [reflexivity|]. rewrite N.eqb_refl. reflexivity.
    + destruct (N.eqb_spec i b) as [->|D2]; [rewrite N.eqb_refl; reflexivity|].
      destruct (N.eqb_spec i a); [contradiction|]. destruct (N.eqb_spec i b); [contradiction|reflexivity].
  - destruct (N.eqb_spec 0 a); [lia|]. destruct (N.eqb_spec 0 b); [lia|reflexivity].
  - intros i Hi. destruct (N.eqb_spec i a); [lia|]. destruct (N.eqb_spec i b); lia.
  - intros i Hi. destruct (N.eqb_spec i a); [lia|]. destruct (N.eqb_spec i b); [lia|].
    destruct (N.eqb_spec (last_id s) a); [lia|]. destruct (N.eqb_spec (last_id s) b); lia.
Qed.
Print Assumptions C160_exchange.

(** ** Number 0 *)

(** Five calls about a token that does not exist, then one about the collection. *)
Definition five (t : N) : history :=
  map (fun d => (from_ bob (3000000000 + d), OTransfer [xfer carol t])) [0; 1; 2; 3; 4].

(** A renumbering must leave 0 alone: calls about number 0, which no token has, count as calls about the collection, calls about
    any other number that no token has do not. *)
Theorem C160_zero_refuted :
  ~ (forall s t t' h e o, reachable s -> tokens s !! t = None -> tokens s !! t' = None ->
       h = five t -> o = OApproveCollection [info carol 3000000000 None] -> e = from_ alice 3000000005 ->
       snd (step e o (run (five t') s)) = snd (step e o (run h s))).
Proof.
  intros H. specialize (H demo2 7 0 (five 7) (from_ alice 3000000005) (OApproveCollection [info carol 3000000000 None])
    (demo_reachable demo2_h) ltac:(vm_compute; reflexivity) ltac:(vm_compute; reflexivity) eq_refl eq_refl eq_refl).
  vm_compute in H. discriminate H.
Qed.
Print Assumptions C160_zero_refuted.

(** ** Examples *)

(** With all numbers moved up by 1000 alice owns 1001 and 1002; bob, who is approved on token 1001, takes it to carol, and the
    next token minted is 1004. *)
Example C160_example :
  let s := num (up 1000) demo2 in
  reachable demo2 /\ renumbering 1000000 (up 1000) (down 1000) /\ next_kept 1000000 (up 1000) demo2 /\
  room 1000000 mint3 demo2 /\
  map (owner_of s) [1; 1001; 1002; 1003] = [None; Some (acct alice); Some (acct alice); Some (acct bob)] /\
  snd (step (num_env (down 1000) (from_ bob 3000000000)) (OTransferFrom [tfrom alice carol 1001]) s) = ABatch [Ok 5] /\
  snd (step (num_env (down 1000) (from_ admin 3000000000)) mint3 s) = ANat 1004 /\
  snd (step (from_ admin 3000000000) mint3 demo2) = ANat 4.
Proof.
  cbv zeta. pose proof (demo_reachable demo2_h) as Re. fold demo2 in Re.
  destruct (C160_later 1000 1000000 demo2 Re) as (R & K & _); [vm_compute; discriminate|vm_compute; discriminate|].
  split; [exact Re|]. split; [exact R|]. split; [exact K|]. split; [vm_compute; discriminate|].
  split; [vm_compute; reflexivity|]. split; [vm_compute; reflexivity|]. split; vm_compute; reflexivity.
Qed.

(** With tokens 1 and 3 exchanged alice owns 3 and 2, bob owns 1, and bob is approved on token 3. *)
Example C160_exchange_example :
  let s := num (exchange 1 3) demo2 in
  renumbering 1000000 (exchange 1 3) (exchange 1 3) /\ next_kept 1000000 (exchange 1 3) demo2 /\
  map (owner_of s) [1; 2; 3] = [Some (acct bob); Some (acct alice); Some (acct alice)] /\
  snd (step (num_env (exchange 1 3) (from_ bob 3000000000)) (OTransferFrom [tfrom alice carol 3]) s) = ABatch [Ok 5] /\
  snd (step (num_env (exchange 1 3) (from_ bob 3000000000)) (OTransferFrom [tfrom alice carol 2]) s) = ABatch [Err EUnauthorized].
Proof.
  cbv zeta. destruct (C160_exchange 1 3 1000000 demo2) as (R & K); [vm_compute; split; reflexivity|vm_compute; split; reflexivity|vm_compute; split; discriminate|].
  split; [exact R|]. split; [exact K|]. split; [vm_compute; reflexivity|]. split; vm_compute; reflexivity.
Qed.

(** A page of it begins after the number asked for. *)
Example C160_pages_example :
  (forall i j, up 1000 i <= up 1000 j <-> i <= j) /\
  icrc7_tokens (num (up 1000) demo2) (Some 1001) (Some 5) = Some [1002; 1003] /\
  icrc7_tokens demo2 (Some 1) (Some 5) = Some [2; 3] /\
  icrc7_tokens_of (num (up 1000) demo2) (acct alice) None (Some 5) = Some [1001; 1002].
Proof.
  split; [|split; [|split]]; [|vm_compute; reflexivity..].
  apply (C160_later 1000 1000000 demo2 (demo_reachable demo2_h)); vm_compute; discriminate.
Qed.
