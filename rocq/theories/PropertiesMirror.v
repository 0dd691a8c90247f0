(** C129: the calls and their answers determine the ledger. *)
From Verif Require Import Base ModelPrincipal ModelState ModelIcrc7 ModelIcrc37 ModelManagement ModelLifecycle
  ModelQueries ModelStep ProofsItems ProofsManage ProofsMicro Spec ProofsCore ProofsLock ProofsMeta Scenario.
Local Open Scope N_scope.

(** ** What somebody who sees every call and its answer writes down *)

Record mirror := mkMirror {
  m_owner : N -> option account;
  m_tok : N -> account -> option approval;
  m_col : account -> account -> option approval;
  m_meta : N -> string -> option value;
  m_next : N;
  m_perm : principal -> permission -> bool
}.

Definition note_owner (t : N) (o : option account) (m : mirror) : mirror :=
  mkMirror (fun t' => if bool_decide (t' = t) then o else m_owner m t') (m_tok m) (m_col m) (m_meta m) (m_next m) (m_perm m).
(** [sp = None]: all spenders. *)
Definition hits (sp : option account) (x : account) : bool :=
  match sp with Some y => bool_decide (akey x = akey y) | None => true end.
Definition note_tok (t : N) (sp : option account) (o : option approval) (m : mirror) : mirror :=
  mkMirror (m_owner m) (fun t' x => if bool_decide (t' = t) && hits sp x then o else m_tok m t' x) (m_col m) (m_meta m) (m_next m) (m_perm m).
Definition note_col (ow : account) (sp : option account) (o : option approval) (m : mirror) : mirror :=
  mkMirror (m_owner m) (m_tok m) (fun w x => if bool_decide (akey w = akey ow) && hits sp x then o else m_col m w x) (m_meta m) (m_next m) (m_perm m).
Definition note_meta (t : N) (f : string -> option value) (m : mirror) : mirror :=
  mkMirror (m_owner m) (m_tok m) (m_col m) (fun t' k => if bool_decide (t' = t) then f k else m_meta m t' k) (m_next m) (m_perm m).
Definition note_next (n : N) (m : mirror) : mirror := mkMirror (m_owner m) (m_tok m) (m_col m) (m_meta m) n (m_perm m).
Definition note_perm (p : principal) (q : permission) (b : bool) (m : mirror) : mirror :=
  mkMirror (m_owner m) (m_tok m) (m_col m) (m_meta m) (m_next m)
    (fun p' q' => if bool_decide (p' = p) && bool_decide (q' = q) then b else m_perm m p' q').

(** The items of a batch with their answers, in order; only accepted items are noted. *)
Fixpoint note_items {A} (f : A -> mirror -> mirror) (l : list A) (rs : list (res N)) (m : mirror) : mirror :=
  match l, rs with
  | a :: l, Ok _ :: rs => note_items f l rs (f a m)
  | _ :: l, Err _ :: rs => note_items f l rs m
  | _, _ => m
  end.

Definition given (i : approval_info) (caller : principal) (now : N) : option approval :=
  Some (mkAppr (ai_spender i) (mkAcc caller (ai_from_sub i)) (ai_expires i) now (ai_memo i)).

Definition note_request (id : N) (r : mint_req) (m : mirror) : mirror :=
  note_meta id (fun k => match last_value (mr_meta r) k with Some v => Some v | None => m_meta m id k end) m.
(** The metadata, and the owners, of the requests of a mint. *)
Fixpoint note_metas (id : N) (l : list mint_req) (m : mirror) : mirror :=
  match l with [] => m | r :: l => note_metas (id + 1) l (note_request id r m) end.
Fixpoint note_owners (id : N) (l : list mint_req) (m : mirror) : mirror :=
  match l with [] => m | r :: l => note_owners (id + 1) l (note_owner id (Some (mr_owner r)) m) end.

(** One call and its answer. *)
Definition note (caller : principal) (now : N) (o : op) (a : answer) (m : mirror) : mirror :=
  match o, a with
  | OTransfer l, ABatch rs => note_items (fun a => note_owner (ta_tid a) (Some (ta_to a))) l rs m
  | OApproveTokens l, ABatch rs =>
      note_items (fun a => note_tok (ap_tid a) (Some (ai_spender (ap_info a))) (given (ap_info a) caller now)) l rs m
  | OApproveCollection l, ABatch rs =>
      note_items (fun i => note_col (mkAcc caller (ai_from_sub i)) (Some (ai_spender i)) (given i caller now)) l rs m
  | ORevokeTokens l, ABatch rs => note_items (fun a => note_tok (rv_tid a) (rv_spender a) None) l rs m
  | ORevokeCollection l, ABatch rs => note_items (fun a => note_col (mkAcc caller None) (rc_spender a) None) l rs m
  | OTransferFrom l, ABatch rs =>
      note_items (fun a m => note_col (tf_from a) None None (note_tok (tf_tid a) None None (note_owner (tf_tid a) (Some (tf_to a)) m))) l rs m
  | OMint l, ANat first => note_next (first + nlen l) (note_owners first l (note_metas first l m))
  | OMint l, AErr (EStorageCanisterError _) => note_metas (m_next m) l m
  | OUpdateMeta t kvs, ANat _ => note_meta t (last_value kvs) m
  | OUpdateMeta t kvs, AErr (EStorageCanisterError _) => note_meta t (last_value kvs) m
  | OBurn t, AOk => note_owner t None m
  | OGrant p q, AOk => note_perm p q true m
  | ORevokePerm p q, AOk => note_perm p q false m
  | _, _ => m
  end.

(** Approvals still good at [now]. *)
Definition good (now : N) (o : option approval) : option approval :=
  match o with Some a => match a_expires a with Some x => if now <? x then o else None | None => o end | None => None end.

(** The notes agree with the ledger at time [now]. *)
Record agrees (now : N) (m : mirror) (s : state) : Prop := mkAgrees {
  ag_owner : forall t, owners s !! t = m_owner m t;
  ag_tok : forall t sp, good now (token_approval s t sp) = good now (m_tok m t sp);
  ag_col : forall ow sp, good now (collection_approval s ow sp) = good now (m_col m ow sp);
  ag_meta : forall t k, meta_of s t k = m_meta m t k;
  ag_next : last_id s = m_next m;
  ag_perm : forall p q, has_permission s p q = m_perm m p q
}.

Lemma good_later now now' o o' : now <= now' -> good now o = good now o' -> good now' o = good now' o'.
Proof.
  intros L. unfold good. destruct o as [a|], o' as [b|]; auto.
  - destruct (a_expires a) as [x|] eqn:X, (a_expires b) as [y|] eqn:Y;
      try destruct (N.ltb_spec now x); try destruct (N.ltb_spec now y); intros E; try discriminate E;
      try (injection E as ->); rewrite ?X in *; rewrite ?Y in *; try congruence;
      try (injection Y as ->); try reflexivity;
      repeat match goal with |- context [now' <? ?z] => destruct (N.ltb_spec now' z) end; try reflexivity; lia.
  - destruct (a_expires a) as [x|]; [|discriminate]. destruct (N.ltb_spec now x); [discriminate|].
    destruct (N.ltb_spec now' x); [lia|reflexivity].
  - destruct (a_expires b) as [x|]; [|discriminate]. destruct (N.ltb_spec now x); [discriminate|].
    destruct (N.ltb_spec now' x); [lia|reflexivity].
Qed.
Lemma agrees_later now now' m s : now <= now' -> agrees now m s -> agrees now' m s.
Proof.
  intros L [A1 A2 A3 A4 A5 A6]. constructor; auto; intros; eapply good_later; eauto.
Qed.
Lemma agrees_quiet now m s s' : quiet s s' -> agrees now m s -> agrees now m s'.
Proof. intros (w & n & ->) [A1 A2 A3 A4 A5 A6]. constructor; auto. Qed.
Lemma agrees_same now m s s' : tokens s' = tokens s -> tok_appr s' = tok_appr s -> col_appr s' = col_appr s ->
  metas s' = metas s -> last_id s' = last_id s -> perms s' = perms s -> agrees now m s -> agrees now m s'.
Proof.
  intros E1 E2 E3 E4 E5 E6 [A1 A2 A3 A4 A5 A6].
  constructor; unfold owners, token_approval, collection_approval, meta_of, has_permission in *;
    rewrite ?E1, ?E2, ?E3, ?E4, ?E5, ?E6; auto.
Qed.

(** ** Single changes *)
Lemma agrees_owner now m s s' t o :
  tokens s' = match o with Some ow => <[t := mkTok t ow]> (tokens s) | None => delete t (tokens s) end ->
  tok_appr s' = tok_appr s -> col_appr s' = col_appr s -> metas s' = metas s -> last_id s' = last_id s -> perms s' = perms s ->
  agrees now m s -> agrees now (note_owner t o m) s'.
Proof.
  intros E1 E2 E3 E4 E5 E6 [A1 A2 A3 A4 A5 A6].
  constructor; unfold owners, token_approval, collection_approval, meta_of, has_permission in *; cbn;
    rewrite ?E1, ?E2, ?E3, ?E4, ?E5, ?E6; auto.
  intros t'. rewrite lookup_fmap. specialize (A1 t'). rewrite lookup_fmap in A1.
  case_bool_decide as D; [subst t'|].
  - destruct o; [rewrite lookup_insert|rewrite lookup_delete]; reflexivity.
  - destruct o; [rewrite lookup_insert_ne by congruence|rewrite lookup_delete_ne by congruence]; exact A1.
Qed.
Lemma appmap_insert_lookup (sp : account) (a : approval) (mm : gmap acckey (account * approval)) (k : acckey) :
  snd <$> appmap_insert sp a mm !! k = if bool_decide (k = akey sp) then Some a else snd <$> mm !! k.
Proof.
  unfold appmap_insert. case_bool_decide as D.
  - subst k. destruct (mm !! akey sp) as [[? ?]|]; rewrite lookup_insert; reflexivity.
  - destruct (mm !! akey sp) as [[? ?]|]; rewrite lookup_insert_ne by congruence; reflexivity.
Qed.
Lemma revoke_from_lookup (sp : option account) (mm : gmap acckey (account * approval)) (x : account) :
  snd <$> revoke_from sp mm !! akey x = if hits sp x then None else snd <$> mm !! akey x.
Proof.
  unfold revoke_from, hits. destruct sp as [y|]; [|rewrite lookup_empty; reflexivity].
  case_bool_decide as D; [rewrite D, lookup_delete|rewrite lookup_delete_ne by congruence]; reflexivity.
Qed.

(** Changes of the entry of one token, or one owner, in the tables of approvals. *)
Lemma agrees_tok now m s s' t sp o :
  tokens s' = tokens s -> col_appr s' = col_appr s -> metas s' = metas s -> last_id s' = last_id s -> perms s' = perms s ->
  (forall t', t' <> t -> tok_appr s' !! t' = tok_appr s !! t') ->
  (forall x, token_approval s' t x = if hits sp x then o else token_approval s t x) ->
  agrees now m s -> agrees now (note_tok t sp o m) s'.
Proof.
  intros E1 E3 E4 E5 E6 N H [A1 A2 A3 A4 A5 A6].
  constructor; unfold owners, collection_approval, meta_of, has_permission in *; cbn; rewrite ?E1, ?E3, ?E4, ?E5, ?E6; auto.
  intros t' x. case_bool_decide as D; cbn [andb].
  - subst t'. rewrite H. destruct (hits sp x); [reflexivity|apply A2].
  - unfold token_approval. rewrite N by exact D. apply A2.
Qed.
Lemma agrees_col now m s s' ow sp o :
  tokens s' = tokens s -> tok_appr s' = tok_appr s -> metas s' = metas s -> last_id s' = last_id s -> perms s' = perms s ->
  (forall k, k <> akey ow -> col_appr s' !! k = col_appr s !! k) ->
  (forall x, collection_approval s' ow x = if hits sp x then o else collection_approval s ow x) ->
  agrees now m s -> agrees now (note_col ow sp o m) s'.
Proof.
  intros E1 E3 E4 E5 E6 N H [A1 A2 A3 A4 A5 A6].
  constructor; unfold owners, token_approval, meta_of, has_permission in *; cbn; rewrite ?E1, ?E3, ?E4, ?E5, ?E6; auto.
  intros w x. case_bool_decide as D; cbn [andb].
  - specialize (H x). specialize (A3 w x). unfold collection_approval in *. rewrite D in *. rewrite H. destruct (hits sp x); [reflexivity|exact A3].
  - unfold collection_approval. rewrite N by exact D. apply A3.
Qed.

(** ** Items *)
Definition idok (s : state) : Prop := forall i t, tokens s !! i = Some t -> t_id t = i.
Lemma idok_same s s' : tokens s' = tokens s -> idok s -> idok s'.
Proof. unfold idok. intros ->. auto. Qed.
Lemma idok_insert s s' t ow : tokens s' = <[t := mkTok t ow]> (tokens s) -> idok s -> idok s'.
Proof.
  unfold idok. intros -> H i x. destruct (decide (i = t)) as [->|N]; [rewrite lookup_insert; intros [= <-]; reflexivity|].
  rewrite lookup_insert_ne by congruence. apply H.
Qed.

Lemma drop_expired_good {K} `{Countable K} (now : N) (k k' : K) (sp sp' : acckey) (M : gmap K (gmap acckey (account * approval))) :
  good now (match drop_expired now k sp M !! k' with Some m => snd <$> m !! sp' | None => None end) =
  good now (match M !! k' with Some m => snd <$> m !! sp' | None => None end).
Proof.
  unfold drop_expired. destruct (M !! k) as [m|] eqn:E; [|reflexivity]. destruct (m !! sp) as [[x ap]|] eqn:A; [|reflexivity].
  destruct (unexpired now ap) eqn:U; [reflexivity|].
  destruct (decide (k' = k)) as [->|N]; [|rewrite lookup_insert_ne by congruence; reflexivity].
  rewrite lookup_insert, E. destruct (decide (sp' = sp)) as [->|N]; [|rewrite lookup_delete_ne by congruence; reflexivity].
  rewrite lookup_delete, A. cbn. unfold unexpired in U. destruct (a_expires ap); [|discriminate]. rewrite U. reflexivity.
Qed.
Lemma agrees_drop now a sp ow m s : agrees now m s -> agrees now m (drop_both now a sp ow s).
Proof.
  intros [A1 A2 A3 A4 A5 A6]. constructor; auto.
  - intros t x. unfold token_approval, drop_both. cbn. rewrite drop_expired_good. apply A2.
  - intros w x. unfold collection_approval, drop_both. cbn. rewrite drop_expired_good. apply A3.
Qed.

Definition follows {A} (e : env) (f : state -> A -> option (state * res N)) (F : A -> mirror -> mirror) : Prop :=
  forall s a s' r m, idok s -> agrees (e_now e) m s -> f s a = Some (s', r) ->
    idok s' /\ agrees (e_now e) (match r with Ok _ => F a m | Err _ => m end) s'.

Lemma note_run {A} e (f : state -> A -> option (state * res N)) F : follows e f F ->
  forall l1 l2 s s' rs m, idok s -> agrees (e_now e) m s -> run_items f s l1 = Some (s', rs) ->
    agrees (e_now e) (note_items F (l1 ++ l2) rs m) s'.
Proof.
  intros Hf. induction l1 as [|a l1 IH]; intros l2 s s' rs m I Ag H; cbn [run_items] in H.
  - injection H as <- <-. destruct l2; exact Ag.
  - destruct (f s a) as [[s1 r]|] eqn:E; [|discriminate]. destruct (run_items f s1 l1) as [[s2 rs']|] eqn:R; [|discriminate].
    injection H as <- <-. destruct (Hf _ _ _ _ _ I Ag E) as [I1 Ag1]. cbn [app note_items]. destruct r; apply (IH l2 s1 s2); assumption.
Qed.
Lemma note_take {A} e (f : state -> A -> option (state * res N)) F n l s s' rs m : follows e f F ->
  idok s -> agrees (e_now e) m s -> run_items f s (take_n n l) = Some (s', rs) -> agrees (e_now e) (note_items F l rs m) s'.
Proof.
  intros Hf I Ag H. unfold take_n in H. set (k := N.to_nat (N.min n (nlen l))) in *.
  rewrite <- (take_drop k l). eapply note_run; eassumption.
Qed.
Lemma note_all {A} e (f : state -> A -> option (state * res N)) F l s s' rs m : follows e f F ->
  idok s -> agrees (e_now e) m s -> run_items f s l = Some (s', rs) -> agrees (e_now e) (note_items F l rs m) s'.
Proof. intros Hf I Ag H. rewrite <- (app_nil_r l). eapply note_run; eassumption. Qed.

(** The log never recognises a transaction as one it has already. *)
Definition no_duplicates (e : env) : Prop := forall k x n, e_log e k x <> LDup n.

Lemma transfer_follows e : no_duplicates e -> follows e (transfer_nft e) (fun a => note_owner (ta_tid a) (Some (ta_to a))).
Proof.
  intros ND s a s' r m I Ag H.
  destruct (transfer_nft_inv _ _ _ _ _ H) as
    [[Q (er & ->)]|[(nft & n & _ & _ & _ & k & L)|(nft & i & s1 & -> & Q & (T & _) & ->)]].
  - split; [eapply idok_same; [apply (quiet_tokens _ _ Q)|exact I]|eapply agrees_quiet; eassumption].
  - destruct (ND _ _ _ L).
  - destruct Q as (w & n & ->). pose proof (I _ _ T) as Hid. split.
    + eapply (idok_insert s _ (ta_tid a) (ta_to a)); [cbn; rewrite Hid; reflexivity|exact I].
    + eapply (agrees_owner _ m s); [cbn; rewrite Hid; reflexivity|reflexivity..|exact Ag].
Qed.

Lemma approve_follows e : follows e (approve_token e)
  (fun a => note_tok (ap_tid a) (Some (ai_spender (ap_info a))) (given (ap_info a) (e_caller e) (e_now e))).
Proof.
  intros s a s' r m I Ag H. destruct (approve_token_inv _ _ _ _ _ H) as [[Q (er & ->)]|(s1 & i & ow & -> & Q & _ & _ & _ & _ & _ & ->)].
  - split; [eapply idok_same; [apply (quiet_tokens _ _ Q)|exact I]|eapply agrees_quiet; eassumption].
  - destruct Q as (w & n & ->). split; [exact I|].
    eapply (agrees_tok _ m s); [reflexivity..| | |exact Ag].
    + intros t' N. cbn. rewrite lookup_insert_ne by congruence. reflexivity.
    + intros x. unfold token_approval. cbn [tok_appr set_tok_appr]. rewrite lookup_insert, appmap_insert_lookup. cbn [hits].
      case_bool_decide; [reflexivity|]. cbn. destruct (tok_appr s !! ap_tid a); [reflexivity|]. cbn. rewrite lookup_empty. reflexivity.
Qed.
Lemma approve_coll_follows e : follows e (approve_collection e)
  (fun i => note_col (mkAcc (e_caller e) (ai_from_sub i)) (Some (ai_spender i)) (given i (e_caller e) (e_now e))).
Proof.
  intros s a s' r m I Ag H. destruct (approve_collection_inv _ _ _ _ _ H) as [[Q (er & ->)]|(s1 & i & -> & Q & _ & _ & _ & _ & ->)].
  - split; [eapply idok_same; [apply (quiet_tokens _ _ Q)|exact I]|eapply agrees_quiet; eassumption].
  - destruct Q as (w & n & ->). split; [exact I|].
    eapply (agrees_col _ m s); [reflexivity..| | |exact Ag].
    + intros t' N. cbn [col_appr set_col_appr]. rewrite lookup_insert_ne by congruence. reflexivity.
    + intros x. unfold collection_approval. cbn [col_appr set_col_appr]. rewrite lookup_insert, appmap_insert_lookup. cbn [hits].
      case_bool_decide; [reflexivity|]. change (col_appr (set_windows w (set_lcalls n s))) with (col_appr s).
      destruct (col_appr s !! akey (mkAcc (e_caller e) (ai_from_sub a))); [reflexivity|]. cbn [default]. rewrite lookup_empty. reflexivity.
Qed.
Lemma revoke_follows e : follows e (revoke_token_approvals e) (fun a => note_tok (rv_tid a) (rv_spender a) None).
Proof.
  intros s a s' r m I Ag H. destruct (revoke_token_inv _ _ _ _ _ H) as [[Q (er & ->)]|(s1 & i & ow & mm & -> & Q & _ & _ & T & _ & ->)].
  - split; [eapply idok_same; [apply (quiet_tokens _ _ Q)|exact I]|eapply agrees_quiet; eassumption].
  - destruct Q as (w & n & ->). split; [exact I|].
    eapply (agrees_tok _ m s); [reflexivity..| | |exact Ag].
    + intros t' N. cbn. rewrite lookup_insert_ne by congruence. reflexivity.
    + intros x. unfold token_approval. cbn [tok_appr set_tok_appr]. rewrite lookup_insert, revoke_from_lookup, T. reflexivity.
Qed.
Lemma revoke_coll_follows e : follows e (revoke_collection_approvals e) (fun a => note_col (mkAcc (e_caller e) None) (rc_spender a) None).
Proof.
  intros s a s' r m I Ag H. destruct (revoke_collection_inv _ _ _ _ _ H) as [[Q (er & ->)]|(s1 & i & mm & -> & Q & T & _ & ->)].
  - split; [eapply idok_same; [apply (quiet_tokens _ _ Q)|exact I]|eapply agrees_quiet; eassumption].
  - destruct Q as (w & n & ->). split; [exact I|].
    eapply (agrees_col _ m s); [reflexivity..| | |exact Ag].
    + intros t' N. cbn [col_appr set_col_appr]. rewrite lookup_insert_ne by congruence. reflexivity.
    + intros x. unfold collection_approval. cbn [col_appr set_col_appr]. rewrite lookup_insert, revoke_from_lookup, T. reflexivity.
Qed.
Lemma transfer_from_follows e : follows e (transfer_from e)
  (fun a m => note_col (tf_from a) None None (note_tok (tf_tid a) None None (note_owner (tf_tid a) (Some (tf_to a)) m))).
Proof.
  intros s a s' r m I Ag H. destruct (transfer_from_inv _ _ _ _ _ H) as
    [[Q (er & ->)]|[(nft & s1 & er & -> & Q & T & ->)|(nft & s1 & i & -> & Q & T & _ & _ & _ & _ & _ & ->)]].
  - split; [eapply idok_same; [apply (quiet_tokens _ _ Q)|exact I]|eapply agrees_quiet; eassumption].
  - split; [eapply (idok_same s); [exact (quiet_tokens _ _ Q)|exact I]|]. apply agrees_drop. eapply agrees_quiet; eassumption.
  - pose proof (I _ _ T) as Hid. pose proof (quiet_tokens _ _ Q) as Qt.
    set (sp := mkAcc (e_caller e) (tf_spender_sub a)). set (s2 := drop_both (e_now e) a sp (t_owner nft) s1).
    assert (A2 : agrees (e_now e) m s2) by (apply agrees_drop; eapply agrees_quiet; eassumption).
    set (s4 := move_token nft (tf_to a) (set_log (log s ++ [(i, transfer_from_tx (e_now e) a sp)]) s2)).
    assert (A4 : agrees (e_now e) (note_owner (tf_tid a) (Some (tf_to a)) m) s4).
    { eapply (agrees_owner _ m s2); [cbn; rewrite Hid; reflexivity|reflexivity..|exact A2]. }
    split.
    + eapply (idok_insert s _ (tf_tid a) (tf_to a)); [cbn; rewrite Hid, Qt; reflexivity|exact I].
    + eapply (agrees_col _ _ (set_tok_appr (delete (tf_tid a) (tok_appr s4)) s4)); [reflexivity..| | |].
      * intros k N. cbn [col_appr set_col_appr]. rewrite lookup_delete_ne by congruence. reflexivity.
      * intros x. unfold collection_approval. cbn [col_appr set_col_appr]. rewrite lookup_delete. reflexivity.
      * eapply (agrees_tok _ _ s4); [reflexivity..| | |exact A4].
        -- intros t' N. cbn [tok_appr set_tok_appr]. rewrite lookup_delete_ne by congruence. reflexivity.
        -- intros x. unfold token_approval. cbn [tok_appr set_tok_appr]. rewrite lookup_delete. reflexivity.
Qed.

(** ** Mints, metadata, burns, permissions *)
Lemma metas_follow now l : forall id m mm mm' s, mint_metadata id l mm = Some mm' ->
  agrees now m (set_metas mm s) -> agrees now (note_metas id l m) (set_metas mm' s).
Proof.
  induction l as [|r l IH]; intros id m mm mm' s H Ag; cbn [mint_metadata] in H.
  - injection H as <-. exact Ag.
  - destruct (add_metadata id (mr_meta r) mm) as [m1|] eqn:E; [|discriminate].
    apply add_metadata_spec in E. destruct E as [E1 E2].
    cbn [note_metas]. apply (IH _ _ m1); [exact H|]. destruct Ag as [A1 A2 A3 A4 A5 A6].
    constructor; auto. intros t k. cbn. case_bool_decide as D.
    + subst t. unfold meta_of in *. cbn in *. rewrite E2, A4. reflexivity.
    + unfold meta_of in *. cbn in *. rewrite E1 by congruence. apply A4.
Qed.
Lemma owners_follow now l : forall id m T s, 
  agrees now m (set_tokens T s) -> agrees now (note_owners id l m) (set_tokens (mint_tokens id l T) s).
Proof.
  induction l as [|r l IH]; intros id m T s Ag; [exact Ag|]. cbn [note_owners mint_tokens].
  apply IH. eapply (agrees_owner _ m (set_tokens T s)); [reflexivity..|exact Ag].
Qed.
Lemma agrees_next now m s n : agrees now m s -> agrees now (note_next n m) (set_last_id n s).
Proof. intros [A1 A2 A3 A4 A5 A6]. constructor; auto. Qed.
Lemma mint_follows e l s s' a m : agrees (e_now e) m s -> step e (OMint l) s = (s', a) ->
  agrees (e_now e) (note (e_caller e) (e_now e) (OMint l) a m) s'.
Proof.
  intros Ag H. destruct a as [|msg|rs|er| |k|].
  all: try (rewrite (step_mint_none _ _ _ _ _ H); [exact Ag|discriminate..]).
  - destruct (step_mint_err _ _ _ _ _ H) as [(-> & N)|(msg & mm & idxs & n & -> & _ & Hm & _ & ->)].
    + destruct er; try exact Ag. destruct (N _ eq_refl).
    + cbn [note]. rewrite <- (ag_next _ _ _ Ag).
      assert (A : agrees (e_now e) (note_metas (last_id s) l m) (set_metas mm s)).
      { apply (metas_follow _ _ _ _ (metas s)); [exact Hm|]. apply (agrees_same _ _ s); [reflexivity..|exact Ag]. }
      apply (agrees_same _ _ (set_metas mm s)); [reflexivity..|exact A].
  - destruct (step_mint _ _ _ _ _ H) as (-> & _ & _ & _ & _ & _ & mm & idxs & n & Hm & _ & ->). cbn [note].
    assert (A : agrees (e_now e) (note_metas (last_id s) l m) (set_metas mm s)).
    { apply (metas_follow _ _ _ _ (metas s)); [exact Hm|]. apply (agrees_same _ _ s); [reflexivity..|exact Ag]. }
    assert (B : agrees (e_now e) (note_owners (last_id s) l (note_metas (last_id s) l m)) (set_tokens (mint_tokens (last_id s) l (tokens s)) (set_metas mm s))).
    { apply owners_follow. apply (agrees_same _ _ (set_metas mm s)); [reflexivity..|exact A]. }
    apply (agrees_next _ _ _ (last_id s + nlen l)) in B. eapply agrees_same; [..|exact B]; reflexivity.
Qed.
Lemma update_follows e t kvs s s' a m : wf s -> agrees (e_now e) m s -> step e (OUpdateMeta t kvs) s = (s', a) ->
  agrees (e_now e) (note (e_caller e) (e_now e) (OUpdateMeta t kvs) a m) s'.
Proof.
  intros W Ag H. destruct (step_update _ _ _ _ _ _ W H) as [(-> & N1 & N2)|(_ & _ & _ & mm & n & R & D)].
  - destruct a as [| | |er| |k|]; try exact Ag; [|destruct (N1 _ eq_refl)]. destruct er; try exact Ag. destruct (N2 _ eq_refl).
  - apply replace_metadata_spec in R. destruct R as [R1 R2].
    assert (A : agrees (e_now e) (note_meta t (last_value kvs) m) (set_metas mm s)).
    { destruct Ag as [A1 A2 A3 A4 A5 A6]. constructor; auto. intros t' k. cbn. unfold meta_of in *. cbn.
      case_bool_decide as D'; [subst t'; apply R2|rewrite R1 by exact D'; apply A4]. }
    destruct D as [(msg & -> & ->)|(i & -> & ->)]; (apply (agrees_same _ _ (set_metas mm s)); [reflexivity..|exact A]).
Qed.
Lemma has_grant p q s p' q' : has_permission (set_perms (perm_grant p q (perms s)) s) p' q' =
  if bool_decide (p' = p) && bool_decide (q' = q) then true else has_permission s p' q'.
Proof.
  unfold has_permission, perm_grant. cbn. case_bool_decide as P; cbn; [subst p'; rewrite lookup_insert|rewrite lookup_insert_ne by congruence; reflexivity].
  destruct (perms s !! p) as [l|]; cbn; repeat case_bool_decide; set_solver.
Qed.
Lemma has_revoke p q s p' q' : has_permission (set_perms (perm_revoke p q (perms s)) s) p' q' =
  if bool_decide (p' = p) && bool_decide (q' = q) then false else has_permission s p' q'.
Proof.
  unfold has_permission, perm_revoke. cbn. destruct (perms s !! p) as [l|] eqn:E.
  - case_bool_decide as P; cbn; [subst p'; rewrite lookup_insert, E|rewrite lookup_insert_ne by congruence; reflexivity].
    pose proof (elem_of_list_filter (fun x => x <> q) l q') as F.
    repeat case_bool_decide; tauto.
  - case_bool_decide as P; cbn; [subst p'; rewrite E; case_bool_decide; reflexivity|reflexivity].
Qed.
Definition other (o : op) : Prop :=
  match o with
  | OUpdateCollection _ | OInitUpload _ _ | OStoreChunk _ | OFinalize _ | OCancel _ | OReply _ _ | OUpgrade => True
  | _ => False
  end.
Definition same_ledger (s s' : state) : Prop := tokens s' = tokens s /\ tok_appr s' = tok_appr s /\ col_appr s' = col_appr s /\
  metas s' = metas s /\ last_id s' = last_id s /\ perms s' = perms s.
Lemma other_same e o s : other o -> same_ledger s (fst (step e o s)).
Proof.
  intros O. apply (step_rel (fun _ => True) same_ledger e o s).
  - intros; repeat split.
  - intros a b c (A1 & A2 & A3 & A4 & A5 & A6) (B1 & B2 & B3 & B4 & B5 & B6). unfold same_ledger.
    rewrite B1, B2, B3, B4, B5, B6. auto 7.
  - intros a b _ M. split; [exact I|]. destruct M; try destruct O; try (repeat split; reflexivity);
      try (match goal with H : quiet _ _ |- _ => destruct H as (w & n & ->) end; repeat split; reflexivity).
    destruct p, r; repeat split; reflexivity.
  - exact I.
Qed.

(** ** C129: whoever sees the calls and their answers knows the ledger *)

(** The full statement is that noting down each call with its answer keeps the notes in agreement with the ledger.  It fails
    when the log answers that a transfer is a duplicate (below); without such an answer it holds for every call. *)
Theorem C129_step_partial : forall s e o m now,
  reachable s -> no_duplicates e -> now <= e_now e -> agrees now m s ->
  agrees (e_now e) (note (e_caller e) (e_now e) o (snd (step e o s)) m) (fst (step e o s)).
Proof.
  intros s e o m now R ND L Ag. apply (agrees_later _ _ _ _ L) in Ag. pose proof (reachable_wf _ R) as W.
  assert (I : idok s) by exact (wf_id _ W).
  destruct (step e o s) as [s' a] eqn:E. cbn [fst snd].
  destruct o as [l|l|l|l|l|l|u|l|t kvs|t|p q|p q|pa sz|pa|pa|pa|i r|].
  - cbn [step] in E. unfold ans_batch, icrc7_transfer in E. destruct l as [|a0 l0]; [injection E as <- <-; exact Ag|].
    destruct (usize_try _) as [mx|]; [|injection E as <- <-; exact Ag].
    destruct (_ && _); [injection E as <- <-; destruct l0; exact Ag|].
    destruct (bool_decide _); [injection E as <- <-; destruct l0; exact Ag|].
    destruct (run_items _ _ _) as [[s1 rs]|] eqn:Rn; injection E as <- <-; [|exact Ag].
    eapply note_take; [apply transfer_follows, ND|exact I|exact Ag|exact Rn].
  - cbn [step] in E. unfold ans_batch, icrc37_approve_tokens in E.
    destruct (run_items _ _ _) as [[s1 rs]|] eqn:Rn; injection E as <- <-; [|exact Ag].
    eapply note_all; [apply approve_follows|exact I|exact Ag|exact Rn].
  - cbn [step] in E. unfold ans_batch, icrc37_approve_collection in E.
    destruct (run_items _ _ _) as [[s1 rs]|] eqn:Rn; injection E as <- <-; [|exact Ag].
    eapply note_all; [apply approve_coll_follows|exact I|exact Ag|exact Rn].
  - cbn [step] in E. unfold icrc37_revoke_token_approvals in E. destruct l as [|a0 l0]; [injection E as <- <-; exact Ag|].
    destruct (guard_sliding_window (e_now e) (rv_tid a0) s) as [s1 pass] eqn:G. apply guard_quiet in G.
    pose proof (agrees_quiet _ _ _ _ G Ag) as Ag1. destruct pass; cbn [negb] in E; [|injection E as <- <-; exact Ag1].
    destruct (run_items _ _ _) as [[s2 rs]|] eqn:Rn; injection E as <- <-; [|exact Ag].
    eapply note_take; [apply revoke_follows|eapply idok_same; [apply (quiet_tokens _ _ G)|exact I]|exact Ag1|exact Rn].
  - cbn [step] in E. unfold ans_batch, icrc37_revoke_collection_approvals in E.
    destruct (run_items _ _ _) as [[s1 rs]|] eqn:Rn; injection E as <- <-; [|exact Ag].
    eapply note_take; [apply revoke_coll_follows|exact I|exact Ag|exact Rn].
  - cbn [step] in E. unfold ans_batch, icrc37_transfer_from in E.
    destruct (run_items _ _ _) as [[s1 rs]|] eqn:Rn; injection E as <- <-; [|exact Ag].
    eapply note_all; [apply transfer_from_follows|exact I|exact Ag|exact Rn].
  - pose proof (other_same e (OUpdateCollection u) s Logic.I) as O. rewrite E in O. destruct O as (O1 & O2 & O3 & O4 & O5 & O6).
    apply (agrees_same _ _ s); assumption.
  - eapply mint_follows; eassumption.
  - eapply update_follows; eassumption.
  - assert (D : a = AOk \/ a <> AOk) by (destruct a; auto; right; discriminate). destruct D as [->|N].
    + destruct (step_burn _ _ _ _ E) as (_ & tok & i & n & T & _ & ->). cbn [note].
      eapply (agrees_owner _ m s); [reflexivity..|exact Ag].
    + assert (Q : quiet s s') by (pose proof (step_burn_other e t s) as Q; rewrite E in Q; exact (Q N)).
      replace (note _ _ _ _ _) with m by (destruct a; reflexivity || congruence). eapply agrees_quiet; eassumption.
  - rewrite step_grant in E. destruct (has_permission _ _ _); [destruct (decide _)|]; injection E as <- <-; try exact Ag.
    destruct Ag as [A1 A2 A3 A4 A5 A6]. constructor; auto. intros p' q'. rewrite has_grant, A6. reflexivity.
  - rewrite step_revoke_perm in E. destruct (has_permission _ _ _); [destruct (decide _)|]; injection E as <- <-; try exact Ag.
    destruct Ag as [A1 A2 A3 A4 A5 A6]. constructor; auto. intros p' q'. rewrite has_revoke, A6. reflexivity.
  - pose proof (other_same e (OInitUpload pa sz) s Logic.I) as O. rewrite E in O. destruct O as (O1 & O2 & O3 & O4 & O5 & O6).
    apply (agrees_same _ _ s); assumption.
  - pose proof (other_same e (OStoreChunk pa) s Logic.I) as O. rewrite E in O. destruct O as (O1 & O2 & O3 & O4 & O5 & O6).
    apply (agrees_same _ _ s); assumption.
  - pose proof (other_same e (OFinalize pa) s Logic.I) as O. rewrite E in O. destruct O as (O1 & O2 & O3 & O4 & O5 & O6).
    apply (agrees_same _ _ s); assumption.
  - pose proof (other_same e (OCancel pa) s Logic.I) as O. rewrite E in O. destruct O as (O1 & O2 & O3 & O4 & O5 & O6).
    apply (agrees_same _ _ s); assumption.
  - pose proof (other_same e (OReply i r) s Logic.I) as O. rewrite E in O. destruct O as (O1 & O2 & O3 & O4 & O5 & O6).
    apply (agrees_same _ _ s); assumption.
  - pose proof (other_same e OUpgrade s Logic.I) as O. rewrite E in O. destruct O as (O1 & O2 & O3 & O4 & O5 & O6).
    apply (agrees_same _ _ s); assumption.
Qed.
Print Assumptions C129_step_partial.

(** The notes taken over a history: only the callers, the times, the calls and the answers are used. *)
Fixpoint note_trace (tr : list event) (m : mirror) : mirror :=
  match tr with
  | [] => m
  | ev :: tr => note_trace tr (note (e_caller (ev_env ev)) (e_now (ev_env ev)) (ev_op ev) (ev_ans ev) m)
  end.
(** The clock does not run backwards. *)
Fixpoint clock (now : N) (h : history) : Prop :=
  match h with [] => True | (e, _) :: h => now <= e_now e /\ clock (e_now e) h end.
Definition end_time (now : N) (h : history) : N := default now (e_now ∘ fst <$> last h).

Lemma run_reachable_step e o s : reachable s -> reachable (fst (step e o s)).
Proof.
  intros (c & u & a & s0 & h & Hi & ->). exists c, u, a, s0, (h ++ [(e, o)]). split; [exact Hi|].
  rewrite run_app. reflexivity.
Qed.
Lemma note_trace_agrees h : forall now m s, reachable s -> (forall e o, (e, o) ∈ h -> no_duplicates e) -> clock now h -> agrees now m s ->
  agrees (end_time now h) (note_trace (trace h s) m) (run h s).
Proof.
  induction h as [|[e o] h IH]; intros now m s R ND C Ag; [exact Ag|].
  cbn [clock] in C. destruct C as [C1 C2]. cbn [run trace].
  pose proof (C129_step_partial s e o m now R (ND e o (elem_of_list_here _ _)) C1 Ag) as A.
  assert (R' : reachable (fst (step e o s))) by (apply run_reachable_step, R).
  destruct (step e o s) as [s' a]. cbn [fst snd] in *. cbn [note_trace ev_env ev_op ev_ans].
  replace (end_time now ((e, o) :: h)) with (end_time (e_now e) h).
  - apply (IH (e_now e)); [exact R'|intros e' o' H; exact (ND e' o' (elem_of_list_further _ _ _ H))|exact C2|exact A].
  - unfold end_time. destruct h as [|x h]; [reflexivity|]. change (last ((e, o) :: x :: h)) with (last (x :: h)).
    destruct (last (x :: h)) eqn:La; [reflexivity|]. apply last_None in La. discriminate.
Qed.

(** The notes of somebody who knows only the permissions given at installation: no tokens, no approvals, no metadata. *)
Definition blank (pm : principal -> permission -> bool) : mirror :=
  mkMirror (fun _ => None) (fun _ _ => None) (fun _ _ => None) (fun _ _ => None) 1 pm.

(** From installation on: the owner of every token, every approval that has not expired, all metadata, the next token id and
    every permission can be told from the calls and their answers alone. *)
Theorem C129_history_partial : forall caller url_ok a s0 h now,
  init caller url_ok a = Some s0 -> (forall e o, (e, o) ∈ h -> no_duplicates e) -> clock now h ->
  agrees (end_time now h) (note_trace (trace h s0) (blank (has_permission s0))) (run h s0).
Proof.
  intros caller url_ok a s0 h now Hi ND C. apply note_trace_agrees; auto.
  - exists caller, url_ok, a, s0, []. auto.
  - apply init_inv in Hi.
    destruct Hi as (_ & _ & _ & _ & ->).
    constructor; unfold owners, token_approval, collection_approval, meta_of; cbn; intros; rewrite ?fmap_empty, ?lookup_empty; reflexivity.
Qed.
Print Assumptions C129_history_partial.

(** ** Stated without the notes: what outsiders see of a history *)
Definition seen (h : history) (s : state) : list (principal * N * op * answer) :=
  map (fun ev => (e_caller (ev_env ev), e_now (ev_env ev), ev_op ev, ev_ans ev)) (trace h s).
(** The same owners, metadata, permissions and next token id, and the same approvals that have not expired at [now]. *)
Definition same_view (now : N) (s s' : state) : Prop :=
  owners s' = owners s /\ (forall t k, meta_of s' t k = meta_of s t k) /\ last_id s' = last_id s /\
  (forall p q, has_permission s' p q = has_permission s p q) /\
  (forall t sp, token_approved s' t sp now <-> token_approved s t sp now) /\
  (forall ow sp, collection_approved s' ow sp now <-> collection_approved s ow sp now).

Lemma note_trace_seen tr tr' m :
  map (fun ev => (e_caller (ev_env ev), e_now (ev_env ev), ev_op ev, ev_ans ev)) tr =
  map (fun ev => (e_caller (ev_env ev), e_now (ev_env ev), ev_op ev, ev_ans ev)) tr' -> note_trace tr m = note_trace tr' m.
Proof.
  revert tr' m. induction tr as [|ev tr IH]; intros [|ev' tr'] m H; try discriminate; [reflexivity|].
  cbn in H. injection H as E1 E2 E3 E4 E5. cbn [note_trace]. rewrite E1, E2, E3, E4. apply IH, E5.
Qed.
Lemma seen_clock h : forall h' s s', seen h s = seen h' s' -> map (e_now ∘ fst) h = map (e_now ∘ fst) h'.
Proof.
  unfold seen. induction h as [|[e o] h IH]; intros [|[e' o'] h'] s s' H; cbn [trace] in H; try reflexivity;
    repeat (match type of H with context [step ?a ?b ?c] => destruct (step a b c) as [? ?] end); try discriminate H.
  cbn in H. injection H as E1 E2 E3 E4 E5. cbn. f_equal; [exact E2|]. exact (IH _ _ _ E5).
Qed.
Lemma end_time_map now h h' : map (e_now ∘ fst) h = map (e_now ∘ fst) h' -> end_time now h = end_time now h'.
Proof.
  intros H. unfold end_time. 
  assert (E : forall h : history, e_now ∘ fst <$> last h = last (map (e_now ∘ fst) h)).
  { intros g. change (map (e_now ∘ fst) g) with ((e_now ∘ fst) <$> g). rewrite fmap_last. reflexivity. }
  rewrite !E, H. reflexivity.
Qed.
Lemma clock_map : forall h h' now, map (e_now ∘ fst) h = map (e_now ∘ fst) h' -> clock now h -> clock now h'.
Proof.
  induction h as [|[e o] h IH]; intros [|[e' o'] h'] now H C; try discriminate; [exact I|].
  cbn in H. injection H as E1 E2. cbn in *. rewrite <- E1. destruct C as [C1 C2]. split; [exact C1|]. exact (IH _ _ E2 C2).
Qed.
Lemma good_approved now o m sp : o = match m with Some mm => snd <$> mm !! akey sp | None => None end ->
  approved_in m sp now <-> is_Some (good now o).
Proof.
  intros ->. unfold approved_in, good. split.
  - intros (m' & k & ap & -> & L & X). rewrite L. cbn. destruct (a_expires ap) as [x|]; [|eauto].
    destruct (N.ltb_spec now x); [eauto|lia].
  - intros [ap H]. destruct m as [m'|]; [|discriminate]. destruct (m' !! akey sp) as [[k ap']|] eqn:L; [|discriminate]. cbn in H.
    exists m', k, ap'. split; [reflexivity|]. split; [exact L|]. destruct (a_expires ap') as [x|]; [|exact I].
    destruct (N.ltb_spec now x); [assumption|discriminate].
Qed.

(** Two canisters installed alike that were called alike and answered alike: the same view. *)
Theorem C129_same_answers_partial : forall caller url_ok a s0 h h' now,
  init caller url_ok a = Some s0 -> (forall e o, (e, o) ∈ h ++ h' -> no_duplicates e) -> clock now h ->
  seen h s0 = seen h' s0 -> same_view (end_time now h) (run h s0) (run h' s0).
Proof.
  intros caller url_ok a s0 h h' now Hi ND C S.
  pose proof (seen_clock _ _ _ _ S) as Ck.
  assert (A : agrees (end_time now h) (note_trace (trace h s0) (blank (has_permission s0))) (run h s0)).
  { eapply C129_history_partial; [exact Hi| |exact C]. intros e o H. apply (ND e o). apply elem_of_app. auto. }
  assert (B : agrees (end_time now h) (note_trace (trace h s0) (blank (has_permission s0))) (run h' s0)).
  { rewrite (note_trace_seen _ _ _ S), (end_time_map _ _ _ Ck). eapply C129_history_partial; [exact Hi| |exact (clock_map _ _ _ Ck C)].
    intros e o H. apply (ND e o). apply elem_of_app. auto. }
  destruct A as [A1 A2 A3 A4 A5 A6], B as [B1 B2 B3 B4 B5 B6].
  split; [apply map_eq; intros i; rewrite A1, B1; reflexivity|]. split; [intros; rewrite A4, B4; reflexivity|].
  split; [congruence|]. split; [intros; rewrite A6, B6; reflexivity|]. split.
  - intros t sp. unfold token_approved. rewrite !(good_approved _ _ _ sp eq_refl).
    pose proof (A2 t sp) as X. pose proof (B2 t sp) as Y. unfold token_approval in X, Y. rewrite X, Y. reflexivity.
  - intros ow sp. unfold collection_approved. rewrite !(good_approved _ _ _ sp eq_refl).
    pose proof (A3 ow sp) as X. pose proof (B3 ow sp) as Y. unfold collection_approval in X, Y. rewrite X, Y. reflexivity.
Qed.
Print Assumptions C129_same_answers_partial.

(** With a log that answers "duplicate", the same calls with the same answers leave different owners: the answer to a transfer
    taken for a duplicate is that of a transfer carried out. *)
Theorem C129_same_answers_refuted : exists caller url_ok a s0 h h' now,
  init caller url_ok a = Some s0 /\ clock now h /\ seen h s0 = seen h' s0 /\
  owners (run h s0) !! 1 = Some (acct bob) /\ owners (run h' s0) !! 1 = Some (acct alice).
Proof.
  exists admin, (fun _ => true), demo_args, demo0.
  exists (demo1_h ++ [(from_ alice 5, OTransfer [xfer bob 1])]).
  exists (demo1_h ++ [(with_log (fun _ _ => LDup 3) (from_ alice 5), OTransfer [xfer bob 1])]), t0.
  split; [apply demo0_init|]. split; [vm_compute; repeat split; discriminate|]. split; [vm_compute; reflexivity|].
  split; vm_compute; reflexivity.
Qed.
Print Assumptions C129_same_answers_refuted.

(** A mint, an approval with an end, a transfer on the strength of it, a burn and a grant: what the notes say. *)
Example C129_example :
  let h := demo2_h ++ [(from_ carol 3000000000, OTransferFrom [tfrom alice carol 1]); (from_ bob 3000000000, OBurn 3);
                       (from_ admin 4000000000, OGrant bob PMinting)] in
  let m := note_trace (trace h demo0) (blank (has_permission demo0)) in
  clock t0 h /\ (forall e o, (e, o) ∈ h -> no_duplicates e) /\
  m_owner m 1 = Some (acct carol) /\ m_owner m 3 = None /\ m_tok m 1 (acct bob) = None /\ m_next m = 4 /\
  m_meta m 1 "a" = Some (VNat 1) /\ m_perm m bob PMinting = true /\ m_perm m carol PMinting = false.
Proof.
  cbv zeta. split; [vm_compute; repeat split; discriminate|]. split.
  { intros e o H. apply elem_of_list_In in H. cbn [In app demo2_h demo1_h] in H.
    repeat (destruct H as [H|H]; [injection H as <- <-; discriminate|]). destruct H. }
  splits; vm_compute; reflexivity.
Qed.
