(** C164: the ledger refines a machine of a dozen rules. *)
From Verif Require Import Base ModelPrincipal ModelState ModelIcrc7 ModelIcrc37 ModelManagement ModelLifecycle
  ModelQueries ModelStep ProofsItems ProofsManage ProofsMicro ProofsCore Spec Scenario PropertiesForce PropertiesMirror.
Local Open Scope N_scope.

(** ** The machine *)

(** Who owns each token, who may move it and until when ([Some None]: for ever), for single tokens and for all tokens of
    an account, the number of the next token, and who has which permission. *)
Record machine := mkMachine {
  x_own : N -> option account;
  x_tok : N -> account -> option (option N);
  x_col : account -> account -> option (option N);
  x_next : N;
  x_may : principal -> permission -> bool
}.

(** Two accounts are one and the same. *)
Definition same (a b : account) : Prop := akey a = akey b.
(** [sp = None]: any spender. *)
Definition is_spender (sp : option account) (x : account) : bool :=
  match sp with Some y => bool_decide (akey x = akey y) | None => true end.

(** The ways to change it. *)
Definition put_own (t : N) (o : option account) (m : machine) : machine :=
  mkMachine (fun t' => if bool_decide (t' = t) then o else x_own m t') (x_tok m) (x_col m) (x_next m) (x_may m).
(** See [put_own]. *)
Definition put_tok (t : N) (sp : option account) (u : option (option N)) (m : machine) : machine :=
  mkMachine (x_own m) (fun t' x => if bool_decide (t' = t) && is_spender sp x then u else x_tok m t' x) (x_col m) (x_next m) (x_may m).
(** See [put_own]. *)
Definition put_col (ow : account) (sp : option account) (u : option (option N)) (m : machine) : machine :=
  mkMachine (x_own m) (x_tok m) (fun w x => if bool_decide (akey w = akey ow) && is_spender sp x then u else x_col m w x) (x_next m) (x_may m).
(** See [put_own]. *)
Definition put_may (p : principal) (q : permission) (b : bool) (m : machine) : machine :=
  mkMachine (x_own m) (x_tok m) (x_col m) (x_next m)
    (fun p' q' => if bool_decide (p' = p) && bool_decide (q' = q) then b else x_may m p' q').
(** New tokens, numbered from the next number on. *)
Definition put_new (l : list account) (m : machine) : machine :=
  mkMachine (fun t => if bool_decide (x_next m <= t < x_next m + nlen l) then l !! N.to_nat (t - x_next m) else x_own m t)
    (x_tok m) (x_col m) (x_next m + nlen l) (x_may m).

(** An approval until [u] is in force at [now], is over at [now]. *)
Definition lasts (now : N) (u : option (option N)) : Prop :=
  match u with Some None => True | Some (Some x) => now < x | None => False end.
(** See [lasts]. *)
Definition over (now : N) (u : option (option N)) : Prop := match u with Some (Some x) => x <= now | _ => False end.

(** Equality of machines. *)
Definition eqm (m m' : machine) : Prop :=
  (forall t, x_own m t = x_own m' t) /\ (forall t x, x_tok m t x = x_tok m' t x) /\ (forall w x, x_col m w x = x_col m' w x) /\
  x_next m = x_next m' /\ (forall p q, x_may m p q = x_may m' p q).

(** The rules: what the caller [p] can do at time [now] with the call [o]. *)
Inductive rule (p : principal) (now : N) : op -> machine -> machine -> Prop :=
| r_stay o m : rule p now o m m
| r_transfer l a ow m :
    a ∈ l -> x_own m (ta_tid a) = Some ow -> acc_owner ow = p -> p <> anonymous ->
    acc_owner (ta_to a) <> anonymous -> ~ same ow (ta_to a) ->
    rule p now (OTransfer l) m (put_own (ta_tid a) (Some (ta_to a)) m)
| r_spend l a ow m :
    a ∈ l -> x_own m (tf_tid a) = Some ow -> same ow (tf_from a) -> ~ same (tf_from a) (tf_to a) ->
    ~ same (tf_to a) anonymous_account ->
    (same (mkAcc p (tf_spender_sub a)) ow \/
     lasts now (x_tok m (tf_tid a) (mkAcc p (tf_spender_sub a))) \/ lasts now (x_col m ow (mkAcc p (tf_spender_sub a)))) ->
    rule p now (OTransferFrom l) m
      (put_col (tf_from a) None None (put_tok (tf_tid a) None None (put_own (tf_tid a) (Some (tf_to a)) m)))
| r_over_tok l a m :
    a ∈ l -> over now (x_tok m (tf_tid a) (mkAcc p (tf_spender_sub a))) ->
    rule p now (OTransferFrom l) m (put_tok (tf_tid a) (Some (mkAcc p (tf_spender_sub a))) None m)
| r_over_col l a ow m :
    a ∈ l -> x_own m (tf_tid a) = Some ow -> over now (x_col m ow (mkAcc p (tf_spender_sub a))) ->
    rule p now (OTransferFrom l) m (put_col ow (Some (mkAcc p (tf_spender_sub a))) None m)
| r_approve l a ow m :
    a ∈ l -> x_own m (ap_tid a) = Some ow -> same ow (mkAcc p (ai_from_sub (ap_info a))) ->
    ~ same (ai_spender (ap_info a)) anonymous_account ->
    rule p now (OApproveTokens l) m
      (put_tok (ap_tid a) (Some (ai_spender (ap_info a))) (Some (ai_expires (ap_info a))) m)
| r_approve_all l i t ow m :
    i ∈ l -> x_own m t = Some ow -> acc_owner ow = p -> ~ same (ai_spender i) anonymous_account ->
    rule p now (OApproveCollection l) m (put_col (mkAcc p (ai_from_sub i)) (Some (ai_spender i)) (Some (ai_expires i)) m)
| r_revoke l a ow m :
    a ∈ l -> x_own m (rv_tid a) = Some ow -> same ow (mkAcc p (rv_from_sub a)) ->
    rule p now (ORevokeTokens l) m (put_tok (rv_tid a) (rv_spender a) None m)
| r_revoke_all l a m :
    a ∈ l -> rule p now (ORevokeCollection l) m (put_col (mkAcc p None) (rc_spender a) None m)
| r_mint l m :
    x_may m p PMinting = true -> rule p now (OMint l) m (put_new (map mr_owner l) m)
| r_burn t ow m :
    x_own m t = Some ow -> acc_owner ow = p -> rule p now (OBurn t) m (put_own t None m)
| r_grant q r m :
    x_may m p PManageAuthorities = true -> rule p now (OGrant q r) m (put_may q r true m)
| r_take q r m :
    x_may m p PManageAuthorities = true -> rule p now (ORevokePerm q r) m (put_may q r false m).

(** Rules one after another; a message applies several when it is a batch. *)
Inductive rules (p : principal) (now : N) (o : op) : machine -> machine -> Prop :=
| rs_done m m' : eqm m m' -> rules p now o m m'
| rs_more m m1 m2 m' : rule p now o m m1 -> eqm m1 m2 -> rules p now o m2 m' -> rules p now o m m'.

(** A whole history. *)
Inductive runs : history -> machine -> machine -> Prop :=
| xs_done m m' : eqm m m' -> runs [] m m'
| xs_more e o h m m1 m' : rules (e_caller e) (e_now e) o m m1 -> runs h m1 m' -> runs ((e, o) :: h) m m'.

(** ** The machine of a ledger *)

(** See [machine]. *)
Definition seen_as (s : state) : machine :=
  mkMachine (owner_of s) (fun t x => a_expires <$> token_approval s t x) (fun w x => a_expires <$> collection_approval s w x)
    (last_id s) (has_permission s).

(** ** Proofs *)

Lemma eqm_refl m : eqm m m.
Proof. unfold eqm. auto. Qed.
Lemma eqm_trans m1 m2 m3 : eqm m1 m2 -> eqm m2 m3 -> eqm m1 m3.
Proof. unfold eqm. intros (A1 & A2 & A3 & A4 & A5) (B1 & B2 & B3 & B4 & B5). repeat split; intros; etransitivity; eauto. Qed.
Lemma eqm_sym m1 m2 : eqm m1 m2 -> eqm m2 m1.
Proof. unfold eqm. intros (A1 & A2 & A3 & A4 & A5). repeat split; intros; symmetry; auto. Qed.

Lemma seen_same s s' : tokens s' = tokens s -> tok_appr s' = tok_appr s -> col_appr s' = col_appr s ->
  last_id s' = last_id s -> perms s' = perms s -> eqm (seen_as s) (seen_as s').
Proof.
  intros E1 E2 E3 E4 E5. unfold eqm, seen_as, owner_of, token_approval, collection_approval, has_permission. cbn.
  rewrite E1, E2, E3, E4, E5. auto.
Qed.
Lemma rules_once p now o m m1 m' : rule p now o m m1 -> eqm m1 m' -> rules p now o m m'.
Proof. intros R E. eapply rs_more; [exact R|exact E|]. apply rs_done, eqm_refl. Qed.
Lemma rules_trans p now o m1 m2 m3 : rules p now o m1 m2 -> rules p now o m2 m3 -> rules p now o m1 m3.
Proof.
  intros H. revert m3. induction H as [m m' E|m ma mb m' R E H IH]; intros m3 G.
  - destruct G as [m2 m3 E'|m2 ma mb m3 R E' G].
    + apply rs_done. eapply eqm_trans; eauto.
    + eapply rs_more; [apply r_stay|exact E|]. eapply rs_more; eauto.
  - eapply rs_more; [exact R|exact E|]. apply IH, G.
Qed.

Lemma seen_tok s s' t sp u :
  tokens s' = tokens s -> col_appr s' = col_appr s -> last_id s' = last_id s -> perms s' = perms s ->
  (forall t', t' <> t -> tok_appr s' !! t' = tok_appr s !! t') ->
  (forall x, a_expires <$> token_approval s' t x = if is_spender sp x then u else a_expires <$> token_approval s t x) ->
  eqm (put_tok t sp u (seen_as s)) (seen_as s').
Proof.
  intros E1 E2 E3 E4 N H. split; [|split; [|split; [|split]]]; cbn.
  - intros t'. unfold owner_of. rewrite E1. reflexivity.
  - intros t' x. case_bool_decide as D; cbn.
    + subst t'. rewrite H. reflexivity.
    + unfold token_approval. rewrite N by exact D. reflexivity.
  - intros w x. unfold collection_approval. rewrite E2. reflexivity.
  - symmetry. exact E3.
  - intros p q. unfold has_permission. rewrite E4. reflexivity.
Qed.
Lemma seen_col s s' ow sp u :
  tokens s' = tokens s -> tok_appr s' = tok_appr s -> last_id s' = last_id s -> perms s' = perms s ->
  (forall k, k <> akey ow -> col_appr s' !! k = col_appr s !! k) ->
  (forall x, a_expires <$> collection_approval s' ow x = if is_spender sp x then u else a_expires <$> collection_approval s ow x) ->
  eqm (put_col ow sp u (seen_as s)) (seen_as s').
Proof.
  intros E1 E2 E3 E4 N H. split; [|split; [|split; [|split]]]; cbn.
  - intros t'. unfold owner_of. rewrite E1. reflexivity.
  - intros t' x. unfold token_approval. rewrite E2. reflexivity.
  - intros w x. case_bool_decide as D; cbn.
    + specialize (H x). unfold collection_approval in *. rewrite D, H. reflexivity.
    + unfold collection_approval. rewrite N by exact D. reflexivity.
  - symmetry. exact E3.
  - intros p q. unfold has_permission. rewrite E4. reflexivity.
Qed.

Section maps.
  Context {K : Type} `{Countable K}.
  Implicit Types M : gmap K appmap.

  (** What a map of approvals says. *)
  Let look M (k : K) (x : acckey) : option (option N) :=
    a_expires <$> match M !! k with Some m => snd <$> m !! x | None => None end.

  Lemma look_put M k sp ap (x : account) :
    look (<[k := appmap_insert sp ap (default ∅ (M !! k))]> M) k (akey x) =
    if is_spender (Some sp) x then Some (a_expires ap) else look M k (akey x).
  Proof.
    unfold look. rewrite lookup_insert. destruct (insert_lookup sp ap (default ∅ (M !! k)) (akey x)) as [y ->]. cbn.
    case_bool_decide as D; [rewrite decide_True by exact D; reflexivity|rewrite decide_False by exact D].
    destruct (M !! k) as [m|]; cbn; [reflexivity|]. rewrite lookup_empty. reflexivity.
  Qed.
  Lemma look_revoke M k sp m (x : account) : M !! k = Some m ->
    look (<[k := revoke_from sp m]> M) k (akey x) = if is_spender sp x then None else look M k (akey x).
  Proof.
    intros E. unfold look. rewrite lookup_insert, E. destruct sp as [sp|]; cbn.
    - case_bool_decide as D; [rewrite <- D, lookup_delete; reflexivity|rewrite lookup_delete_ne by congruence; reflexivity].
    - rewrite lookup_empty. reflexivity.
  Qed.
  Lemma look_delete M k x : look (delete k M) k x = None.
  Proof. unfold look. rewrite lookup_delete. reflexivity. Qed.
  Lemma drop_delete M now k sp : delete k (drop_expired now k sp M) = delete k M.
  Proof.
    unfold drop_expired. destruct (M !! k) as [m|]; [|reflexivity]. destruct (m !! sp) as [[y ap]|]; [|reflexivity].
    destruct (unexpired now ap); [reflexivity|]. apply delete_insert_delete.
  Qed.
  Lemma drop_other M now k sp k' : k' <> k -> drop_expired now k sp M !! k' = M !! k'.
  Proof.
    intros N. unfold drop_expired. destruct (M !! k) as [m|]; [|reflexivity]. destruct (m !! sp) as [[y ap]|]; [|reflexivity].
    destruct (unexpired now ap); [reflexivity|]. apply lookup_insert_ne. congruence.
  Qed.
  Lemma drop_look M now k sp :
    drop_expired now k (akey sp) M = M \/
    (over now (look M k (akey sp)) /\
     forall x, look (drop_expired now k (akey sp) M) k (akey x) = if is_spender (Some sp) x then None else look M k (akey x)).
  Proof.
    unfold drop_expired, look. destruct (M !! k) as [m|] eqn:E; [|auto]. destruct (m !! akey sp) as [[y ap]|] eqn:F; [|auto].
    unfold unexpired. destruct (a_expires ap) as [z|] eqn:X; [|auto]. destruct (N.ltb_spec now z) as [L|L]; [auto|].
    right. split; [cbn; rewrite X; exact L|]. intros x. rewrite lookup_insert. cbn.
    case_bool_decide as D; [rewrite <- D, lookup_delete; reflexivity|rewrite lookup_delete_ne by congruence; reflexivity].
  Qed.
  Lemma valid_lasts M now k sp : has_valid now (M !! k) sp = true -> lasts now (look M k sp).
  Proof.
    unfold has_valid, look. destruct (M !! k) as [m|]; [|discriminate]. destruct (m !! sp) as [[y ap]|]; [|discriminate].
    cbn. unfold unexpired. destruct (a_expires ap) as [z|]; [apply N.ltb_lt|auto].
  Qed.
End maps.

Lemma drop_rules e l a nft s : a ∈ l -> tokens s !! tf_tid a = Some nft ->
  rules (e_caller e) (e_now e) (OTransferFrom l) (seen_as s)
    (seen_as (drop_both (e_now e) a (mkAcc (e_caller e) (tf_spender_sub a)) (t_owner nft) s)).
Proof.
  intros A T. set (sp := mkAcc (e_caller e) (tf_spender_sub a)).
  set (s1 := set_tok_appr (drop_expired (e_now e) (tf_tid a) (akey sp) (tok_appr s)) s).
  eapply (rules_trans _ _ _ _ (seen_as s1)).
  - destruct (drop_look (tok_appr s) (e_now e) (tf_tid a) sp) as [E|[O L]].
    + apply rs_done, seen_same; try reflexivity. exact E.
    + eapply rules_once; [apply (r_over_tok _ _ l a); [exact A|exact O]|]. apply seen_tok; try reflexivity.
      * intros t' N. apply drop_other, N.
      * exact L.
  - unfold drop_both. fold sp. change (rules (e_caller e) (e_now e) (OTransferFrom l) (seen_as s1)
      (seen_as (set_col_appr (drop_expired (e_now e) (akey (t_owner nft)) (akey sp) (col_appr s1)) s1))).
    destruct (drop_look (col_appr s1) (e_now e) (akey (t_owner nft)) sp) as [E|[O L]].
    + apply rs_done, seen_same; try reflexivity. exact E.
    + eapply rules_once; [apply (r_over_col _ _ l a (t_owner nft)); [exact A| |exact O]|].
      * cbn. unfold owner_of. change (tokens s1) with (tokens s). rewrite T. reflexivity.
      * apply seen_col; try reflexivity.
        -- intros k N. apply drop_other, N.
        -- exact L.
Qed.

Lemma owner_tok s t nft : tokens s !! t = Some nft -> owner_of s t = Some (t_owner nft).
Proof. intros E. unfold owner_of. rewrite E. reflexivity. Qed.
Lemma seen_own s s' t o :
  tokens s' = match o with Some ow => <[t := mkTok t ow]> (tokens s) | None => delete t (tokens s) end ->
  tok_appr s' = tok_appr s -> col_appr s' = col_appr s -> last_id s' = last_id s -> perms s' = perms s ->
  eqm (put_own t o (seen_as s)) (seen_as s').
Proof.
  intros E1 E2 E3 E4 E5. split; [|split; [|split; [|split]]]; cbn.
  - intros t'. unfold owner_of. rewrite E1. case_bool_decide as D.
    + subst t'. destruct o; [rewrite lookup_insert|rewrite lookup_delete]; reflexivity.
    + destruct o; [rewrite lookup_insert_ne by congruence|rewrite lookup_delete_ne by congruence]; reflexivity.
  - intros t' x. unfold token_approval. rewrite E2. reflexivity.
  - intros w x. unfold collection_approval. rewrite E3. reflexivity.
  - symmetry. exact E4.
  - intros p q. unfold has_permission. rewrite E5. reflexivity.
Qed.
Lemma seen_quiet s s1 : quiet s s1 -> eqm (seen_as s) (seen_as s1).
Proof. intros (w & n & ->). apply seen_same; reflexivity. Qed.
Lemma owns_some s p : has_nfts s p = true -> exists t ow, owner_of s t = Some ow /\ acc_owner ow = p.
Proof.
  unfold has_nfts. intros H. apply existsb_exists in H as ([t nft] & I & E). cbn in E. apply bool_decide_eq_true in E.
  apply elem_of_list_In, elem_of_map_to_list in I. exists t, (t_owner nft). split; [apply owner_tok, I|exact E].
Qed.
Lemma seen_mint s s' l :
  tokens s' = mint_tokens (last_id s) l (tokens s) -> last_id s' = last_id s + nlen l ->
  tok_appr s' = tok_appr s -> col_appr s' = col_appr s -> perms s' = perms s ->
  eqm (put_new (map mr_owner l) (seen_as s)) (seen_as s').
Proof.
  intros E1 E2 E3 E4 E5.
  assert (NL : nlen (map mr_owner l) = nlen l) by (unfold nlen; rewrite map_length; reflexivity).
  split; [|split; [|split; [|split]]]; cbn; rewrite ?NL.
  - intros t. unfold owner_of. rewrite E1, mint_tokens_lookup. case_bool_decide as D.
    + rewrite decide_True by exact D. rewrite list_lookup_fmap. destruct (l !! N.to_nat (t - last_id s)); reflexivity.
    + rewrite decide_False by exact D. reflexivity.
  - intros t x. unfold token_approval. rewrite E3. reflexivity.
  - intros w x. unfold collection_approval. rewrite E4. reflexivity.
  - symmetry. exact E2.
  - intros p q. unfold has_permission. rewrite E5. reflexivity.
Qed.

Lemma micro_rules e o s s' : wf s -> micro e o s s' -> rules (e_caller e) (e_now e) o (seen_as s) (seen_as s').
Proof.
  intros W H. destruct H as [o s s' Q|l a nft i s s1 A Q T O An Ne Nc _|l a ow i s s1 A Q T O An _|l a i s s1 A Q An T _
    |l a ow m i s s1 A Q T O M|l a m i s s1 A Q M|l a nft s s1 A Q T|l a nft i s s1 A Q T Ne An O V|u s G P|l m ix n s G P X L
    |l m ix n s G P C S X L|t kvs tok m n s G P T R|t kvs tok m n i s G P T R|t tok n i s G T O|q r s G P|q r s G P
    |o key u s _ _ _ _ _ _|o p s _ _ _ _|id r p s E|s].
  - apply rs_done, seen_quiet, Q.
  - destruct Q as (w & n & ->). pose proof (wf_id _ W _ _ T) as I.
    eapply rules_once; [eapply (r_transfer _ _ l a (t_owner nft)); eauto; apply owner_tok, T|].
    apply seen_own; try reflexivity. cbn. rewrite I. reflexivity.
  - destruct Q as (w & n & ->). eapply rules_once; [eapply (r_approve _ _ l a ow); eauto|].
    apply seen_tok; try reflexivity.
    + intros t' N. cbn. apply lookup_insert_ne. congruence.
    + intros x. exact (look_put (tok_appr s) _ _ _ x).
  - destruct Q as (w & n & ->). destruct (owns_some _ _ T) as (t & ow & Ow & Eo).
    eapply rules_once; [eapply (r_approve_all _ _ l a t ow); eauto|].
    apply seen_col; try reflexivity.
    + intros t' N. cbn. apply lookup_insert_ne. congruence.
    + intros x. exact (look_put (col_appr s) _ _ _ x).
  - destruct Q as (w & n & ->). eapply rules_once; [eapply (r_revoke _ _ l a ow); eauto|].
    apply seen_tok; try reflexivity.
    + intros t' N. cbn. apply lookup_insert_ne. congruence.
    + intros x. exact (look_revoke (tok_appr s) _ _ _ x M).
  - destruct Q as (w & n & ->). eapply rules_once; [eapply (r_revoke_all _ _ l a); eauto|].
    apply seen_col; try reflexivity.
    + intros t' N. cbn. apply lookup_insert_ne. cbn. congruence.
    + intros x. exact (look_revoke (col_appr s) _ _ _ x M).
  - eapply rules_trans; [apply rs_done, seen_quiet, Q|]. apply drop_rules; [exact A|]. rewrite (quiet_tokens _ _ Q). exact T.
  - destruct Q as (w & n & ->). pose proof (wf_id _ W _ _ T) as I. subst s2 s3 s4.
    eapply rules_once; [eapply (r_spend _ _ l a (t_owner nft)); eauto|].
    + apply owner_tok, T.
    + destruct V as [V|[V|V]]; [left; unfold same; congruence|right; left|right; right].
      * exact (valid_lasts (tok_appr s) _ _ _ V).
      * exact (valid_lasts (col_appr s) _ _ _ V).
    + split; [|split; [|split; [|split]]]; cbn.
      * intros t'. unfold owner_of. cbn. rewrite I. case_bool_decide as D; [subst t'; rewrite lookup_insert; reflexivity|].
        rewrite lookup_insert_ne by congruence. reflexivity.
      * intros t' x. unfold token_approval. cbn. rewrite drop_delete. case_bool_decide as D; cbn.
        -- subst t'. rewrite lookup_delete. reflexivity.
        -- rewrite lookup_delete_ne by congruence. reflexivity.
      * intros k x. unfold collection_approval. cbn. rewrite O, drop_delete. case_bool_decide as D; cbn.
        -- rewrite D, lookup_delete. reflexivity.
        -- rewrite lookup_delete_ne by congruence. reflexivity.
      * reflexivity.
      * reflexivity.
  - apply rs_done, seen_same; reflexivity.
  - apply rs_done, seen_same; reflexivity.
  - eapply rules_once; [eapply r_mint; exact P|]. apply seen_mint; reflexivity.
  - apply rs_done, seen_same; reflexivity.
  - apply rs_done, seen_same; reflexivity.
  - eapply rules_once; [eapply (r_burn _ _ t (t_owner tok)); [apply owner_tok, T|exact O]|]. apply seen_own; reflexivity.
  - eapply rules_once; [eapply r_grant; exact P|]. split; [|split; [|split; [|split]]]; try reflexivity.
    intros p' q'. cbn. rewrite has_grant. reflexivity.
  - eapply rules_once; [eapply r_take; exact P|]. split; [|split; [|split; [|split]]]; try reflexivity.
    intros p' q'. cbn. rewrite has_revoke. reflexivity.
  - apply rs_done, seen_same; reflexivity.
  - apply rs_done, seen_same; reflexivity.
  - apply rs_done, seen_same; destruct p, r; reflexivity.
  - apply rs_done, seen_same; reflexivity.
Qed.

(** ** The claim *)

Theorem C164_step e o s : reachable s -> rules (e_caller e) (e_now e) o (seen_as s) (seen_as (fst (step e o s))).
Proof.
  intros Re. pose proof (reachable_wf _ Re) as W. pose proof (step_micros e o s) as M. clear Re. revert W.
  induction M as [s|s s1 s' X M IH]; intros W; [apply rs_done, eqm_refl|].
  eapply rules_trans; [eapply micro_rules; eauto|]. apply IH. eapply wf_micro; eauto.
Qed.

Theorem C164_history h s : reachable s -> runs h (seen_as s) (seen_as (run h s)).
Proof.
  revert s. induction h as [|[e o] h IH]; intros s Re; [apply xs_done, eqm_refl|].
  eapply xs_more; [apply C164_step, Re|]. apply (IH (fst (step e o s))).
  destruct Re as (c & u & a & s0 & h0 & I & ->). exists c, u, a, s0, (h0 ++ [(e, o)]). split; [exact I|]. rewrite run_app. reflexivity.
Qed.

(** The machine of a fresh ledger. *)
Definition fresh (may : principal -> permission -> bool) : machine :=
  mkMachine (fun _ => None) (fun _ _ => None) (fun _ _ => None) 1 may.

Theorem C164_installed c url a s0 h :
  init c url a = Some s0 -> runs h (fresh (has_permission s0)) (seen_as (run h s0)).
Proof.
  intros I. assert (E : eqm (seen_as s0) (fresh (has_permission s0))).
  { destruct (init_inv _ _ _ _ I) as (_ & _ & _ & _ & ->). split; [|split; [|split; [|split]]]; cbn; try reflexivity. }
  assert (R : reachable s0) by (exists c, url, a, s0, []; split; [exact I|reflexivity]).
  pose proof (C164_history h s0 R) as H. destruct h as [|[e o] h].
  - apply xs_done. apply eqm_sym. exact E.
  - inversion H as [|e' o' h' m m1 m' X Y]; subst. eapply xs_more; [|exact Y].
    eapply rules_trans; [apply rs_done, eqm_sym, E|exact X].
Qed.

(** Whatever the rules keep, the ledger keeps. *)
Theorem C164_kept (J : machine -> Prop) h s :
  (forall m m', eqm m m' -> J m -> J m') -> (forall p now o m m', rule p now o m m' -> J m -> J m') ->
  reachable s -> J (seen_as s) -> J (seen_as (run h s)).
Proof.
  intros E R Re. pose proof (C164_history h s Re) as H. revert H. generalize (seen_as s), (seen_as (run h s)).
  intros m m' H. induction H as [m m' X|e o h m m1 m' X H IH]; intros Jm; [eapply E; eauto|]. apply IH. clear IH H.
  induction X as [y y1 Y|y ya yb y1 Y Z X IH]; [eapply E; eauto|]. apply IH. eapply E; [exact Z|]. eapply R; eauto.
Qed.

(** For example, from the rules alone: a number once given out and without a token stays so. *)
Theorem C164_gone h s t : reachable s -> owner_of s t = None -> t < last_id s ->
  owner_of (run h s) t = None /\ t < last_id (run h s).
Proof.
  intros Re N L. apply (C164_kept (fun m => x_own m t = None /\ t < x_next m)); [| |exact Re|split; [exact N|exact L]].
  - intros m m' (E1 & _ & _ & E4 & _). rewrite E1, E4. auto.
  - intros p now o m m' R [Nm Lm]. destruct R; cbn; repeat case_bool_decide; subst; try (split; auto; congruence);
      try (split; auto; lia).
Qed.

(** ** Examples *)

(** carol, approved for all tokens of alice, takes token 2: the rule for it, its conditions, and what becomes of the machine; the
    machine of the ledger is that machine. *)
Example C164_example :
  let s := demo2 in let s' := fst (step (from_ carol 3000000000) (OTransferFrom [tfrom alice carol 2]) s) in
  reachable s /\
  x_own (seen_as s) 2 = Some (acct alice) /\ x_col (seen_as s) (acct alice) (acct carol) = Some (Some (t0 + 9000000000)) /\
  x_tok (seen_as s) 2 (acct carol) = None /\
  x_own (seen_as s') 2 = Some (acct carol) /\ x_col (seen_as s') (acct alice) (acct carol) = None /\
  x_tok (seen_as s') 1 (acct bob) = x_tok (seen_as s) 1 (acct bob) /\ x_tok (seen_as s) 1 (acct bob) <> None /\
  x_next (seen_as s') = 4.
Proof.
  split; [exact (demo_reachable demo2_h)|]. split; [|split; [|split; [|split; [|split; [|split; [|split]]]]]]; try (vm_compute; reflexivity).
  vm_compute. discriminate.
Qed.

(** The machine is not free to do anything: without an approval the rules leave the token of alice where it is. *)
Example C164_example_refused :
  x_own (seen_as demo1) 1 = Some (acct alice) /\
  forall m now, rules carol now (OTransferFrom [tfrom alice carol 1]) (seen_as demo1) m -> x_own m 1 = Some (acct alice).
Proof.
  split; [vm_compute; reflexivity|]. intros m now.
  assert (G : forall m0, rules carol now (OTransferFrom [tfrom alice carol 1]) m0 m ->
    x_own m0 1 = Some (acct alice) -> x_tok m0 1 (acct carol) = None -> x_col m0 (acct alice) (acct carol) = None ->
    x_own m 1 = Some (acct alice)).
  { intros m0 H. induction H as [m1 m2 E|m1 ma mb m2 R E H IH]; intros O T C.
    - destruct E as (E & _). rewrite <- E. exact O.
    - destruct E as (E1 & E2 & E3 & _). apply IH; [rewrite <- E1|rewrite <- E2|rewrite <- E3]; clear IH H E1 E2 E3.
      + inversion R as [| |l a ow mm A W _ _ _ V| | | | | | | | | |]; subst; cbn; auto.
        apply elem_of_list_singleton in A. subst a. cbn in *. exfalso. rewrite O in W. injection W as <-.
        destruct V as [X|[X|X]]; [vm_compute in X; discriminate|unfold acct in *; rewrite T in X; exact X|unfold acct in *; rewrite C in X; exact X].
      + inversion R; subst; cbn; auto; destruct (_ && _); auto.
      + inversion R; subst; cbn; auto; destruct (_ && _); auto. }
  intros H. apply (G _ H); vm_compute; reflexivity.
Qed.

Print Assumptions C164_step.
Print Assumptions C164_history.
Print Assumptions C164_installed.
Print Assumptions C164_kept.
Print Assumptions C164_gone.
