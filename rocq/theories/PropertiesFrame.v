(** What a message leaves alone, who can lock everybody out, who can come to own a token, what the rate limiter keeps. *)
From Verif Require Import Base ModelPrincipal ModelState ModelIcrc7 ModelIcrc37 ModelManagement ModelLifecycle
  ModelQueries ModelStep ProofsItems ProofsManage ProofsMicro Spec ProofsCore ProofsOwner ProofsRate ProofsApprovals ProofsLock
  ProofsMeta Scenario.

(** ** C20, more exactly: what a transfer_from may remove *)

Lemma drop_expired_cause {K} `{Countable K} (now : N) (k k' : K) (sp x : acckey) (M : gmap K appmap) (m : appmap) (ka : account)
  (ap : approval) :
  M !! k' = Some m -> m !! x = Some (ka, ap) ->
  (exists m' : appmap, drop_expired now k sp M !! k' = Some m' /\ m' !! x = Some (ka, ap)) \/
  (k = k' /\ x = sp /\ unexpired now ap = false).
Proof.
  intros E X. unfold drop_expired. destruct (M !! k) as [m1|] eqn:E1; [|eauto].
  destruct (m1 !! sp) as [[k0 ap0]|] eqn:E2; [|eauto]. destruct (unexpired now ap0) eqn:U; [eauto|].
  destruct (decide (k = k')) as [<-|Hne].
  - assert (m = m1) as -> by congruence. rewrite lookup_insert. destruct (decide (sp = x)) as [<-|Hx].
    + right. split; [reflexivity|]. split; [reflexivity|]. congruence.
    + left. eexists. split; [reflexivity|]. rewrite lookup_delete_ne by exact Hx. exact X.
  - rewrite lookup_insert_ne by exact Hne. eauto.
Qed.

Lemma unexpired_false now ap : unexpired now ap = false -> exists x, a_expires ap = Some x /\ x <= now.
Proof. unfold unexpired. destruct (a_expires ap) as [x|]; [|discriminate]. intros U. apply N.ltb_ge in U. eauto. Qed.

Lemma transfer_from_items_removes e l s s' rs :
  run_items (transfer_from e) s l = Some (s', rs) ->
  (forall t m x ka ap, tok_appr s !! t = Some m -> m !! x = Some (ka, ap) ->
     (exists m', tok_appr s' !! t = Some m' /\ m' !! x = Some (ka, ap)) \/
     (exists j a i, l !! j = Some a /\ rs !! j = Some (Ok i) /\ tf_tid a = t) \/
     (exists a, a ∈ l /\ tf_tid a = t /\ x = akey (mkAcc (e_caller e) (tf_spender_sub a)) /\ unexpired (e_now e) ap = false)) /\
  (forall ow m x ka ap, col_appr s !! ow = Some m -> m !! x = Some (ka, ap) ->
     (exists m', col_appr s' !! ow = Some m' /\ m' !! x = Some (ka, ap)) \/
     (exists j a i, l !! j = Some a /\ rs !! j = Some (Ok i) /\ akey (tf_from a) = ow) \/
     (exists a, a ∈ l /\ x = akey (mkAcc (e_caller e) (tf_spender_sub a)) /\ unexpired (e_now e) ap = false)).
Proof.
  revert s rs. induction l as [|a l IH]; intros s rs R; cbn [run_items] in R.
  - injection R as <- <-. split; eauto.
  - destruct (transfer_from e s a) as [[s1 r]|] eqn:F; [|discriminate].
    destruct (run_items (transfer_from e) s1 l) as [[s2 rs']|] eqn:R'; [|discriminate]. injection R as <- <-.
    specialize (IH _ _ R'). destruct IH as [IT IC].
    assert (HT : forall t m x ka ap, tok_appr s !! t = Some m -> m !! x = Some (ka, ap) ->
       (exists m', tok_appr s1 !! t = Some m' /\ m' !! x = Some (ka, ap)) \/
       (exists i, r = Ok i /\ tf_tid a = t) \/
       (tf_tid a = t /\ x = akey (mkAcc (e_caller e) (tf_spender_sub a)) /\ unexpired (e_now e) ap = false)).
    { intros t m x ka ap E X. pose proof (transfer_from_inv e s a s1 r F) as I. cbv zeta in I.
      destruct I as [[Q _]|[(nft & s3 & er & -> & Q & T & ->)|(nft & s3 & i & -> & Q & T & _ & _ & _ & _ & _ & ->)]];
        open_quiet.
      - left. exists m. auto.
      - cbn. destruct (drop_expired_cause (e_now e) (tf_tid a) t (akey (mkAcc (e_caller e) (tf_spender_sub a))) x _ _ _ _ E X)
          as [D|(D1 & D2 & D3)]; auto.
      - destruct (decide (tf_tid a = t)) as [Et|Hne]; [right; left; eauto|]. left. cbn. exists m.
        rewrite lookup_delete_ne by exact Hne. rewrite drop_expired_other by exact Hne. auto. }
    assert (HC : forall ow m x ka ap, col_appr s !! ow = Some m -> m !! x = Some (ka, ap) ->
       (exists m', col_appr s1 !! ow = Some m' /\ m' !! x = Some (ka, ap)) \/
       (exists i, r = Ok i /\ akey (tf_from a) = ow) \/
       (x = akey (mkAcc (e_caller e) (tf_spender_sub a)) /\ unexpired (e_now e) ap = false)).
    { intros ow m x ka ap E X. pose proof (transfer_from_inv e s a s1 r F) as I. cbv zeta in I.
      destruct I as [[Q _]|[(nft & s3 & er & -> & Q & T & ->)|(nft & s3 & i & -> & Q & T & _ & _ & _ & Ho & _ & ->)]];
        open_quiet.
      - left. exists m. auto.
      - cbn. destruct (drop_expired_cause (e_now e) (akey (t_owner nft)) ow (akey (mkAcc (e_caller e) (tf_spender_sub a))) x
          _ _ _ _ E X) as [D|(D1 & D2 & D3)]; auto.
      - destruct (decide (akey (tf_from a) = ow)) as [Et|Hne]; [right; left; eauto|]. left. cbn. exists m.
        rewrite lookup_delete_ne by exact Hne. rewrite drop_expired_other by (rewrite Ho; exact Hne). auto. }
    split.
    + intros t m x ka ap E X. destruct (HT _ _ _ _ _ E X) as [(m' & E' & X')|[(i & -> & Ht)|(H1 & H2 & H3)]].
      * destruct (IT _ _ _ _ _ E' X') as [D|[(j & b & i & D1 & D2 & D3)|(b & D1 & D2)]]; [auto| |].
        -- right; left. exists (S j), b, i. auto.
        -- right; right. exists b. split; [right; exact D1|exact D2].
      * right; left. exists 0%nat, a, i. auto.
      * right; right. exists a. split; [left|auto].
    + intros t m x ka ap E X. destruct (HC _ _ _ _ _ E X) as [(m' & E' & X')|[(i & -> & Ht)|(H1 & H2)]].
      * destruct (IC _ _ _ _ _ E' X') as [D|[(j & b & i & D1 & D2 & D3)|(b & D1 & D2)]]; [auto| |].
        -- right; left. exists (S j), b, i. auto.
        -- right; right. exists b. split; [right; exact D1|exact D2].
      * right; left. exists 0%nat, a, i. auto.
      * right; right. exists a. split; [left|auto].
Qed.

(** A token approval that a transfer_from batch removes: the token was moved by an accepted item, or the approval is the
    caller's own and has expired. *)
Theorem C20_transfer_from_removes e l s s' rs t sp ap :
  step e (OTransferFrom l) s = (s', ABatch rs) -> token_approval s t sp = Some ap -> token_approval s' t sp <> Some ap ->
  (exists j a i, l !! j = Some a /\ rs !! j = Some (Ok i) /\ tf_tid a = t) \/
  (exists a x, a ∈ l /\ tf_tid a = t /\ akey sp = akey (mkAcc (e_caller e) (tf_spender_sub a)) /\
     a_expires ap = Some x /\ x <= e_now e).
Proof.
  cbn [step]. unfold icrc37_transfer_from, ans_batch. destruct (run_items _ _ _) as [[s1 rs1]|] eqn:R; [|discriminate].
  intros H A B. assert (s1 = s') as -> by congruence. assert (rs1 = rs) as -> by congruence. clear H.
  apply transfer_from_items_removes in R. destruct R as [R _]. unfold token_approval in A, B.
  destruct (tok_appr s !! t) as [m|] eqn:E; [|discriminate].
  destruct (m !! akey sp) as [[ka ap']|] eqn:X; [|discriminate]. cbn in A. assert (ap' = ap) as -> by congruence.
  destruct (R _ _ _ _ _ E X) as [(m' & E' & X')|[D|(a & D1 & D2 & D3 & D4)]].
  - rewrite E', X' in B. destruct (B eq_refl).
  - left. exact D.
  - right. apply unexpired_false in D4 as (x & D4 & D5). exists a, x. auto.
Qed.

(** The same for approvals of a whole collection: a token of that account was moved by an accepted item, or the approval is
    the caller's own and has expired. *)
Theorem C20_transfer_from_removes_collection e l s s' rs ow sp ap :
  step e (OTransferFrom l) s = (s', ABatch rs) -> collection_approval s ow sp = Some ap ->
  collection_approval s' ow sp <> Some ap ->
  (exists j a i, l !! j = Some a /\ rs !! j = Some (Ok i) /\ akey (tf_from a) = akey ow) \/
  (exists a x, a ∈ l /\ akey sp = akey (mkAcc (e_caller e) (tf_spender_sub a)) /\ a_expires ap = Some x /\ x <= e_now e).
Proof.
  cbn [step]. unfold icrc37_transfer_from, ans_batch. destruct (run_items _ _ _) as [[s1 rs1]|] eqn:R; [|discriminate].
  intros H A B. assert (s1 = s') as -> by congruence. assert (rs1 = rs) as -> by congruence. clear H.
  apply transfer_from_items_removes in R. destruct R as [_ R]. unfold collection_approval in A, B.
  destruct (col_appr s !! akey ow) as [m|] eqn:E; [|discriminate].
  destruct (m !! akey sp) as [[ka ap']|] eqn:X; [|discriminate]. cbn in A. assert (ap' = ap) as -> by congruence.
  destruct (R _ _ _ _ _ E X) as [(m' & E' & X')|[D|(a & D1 & D2 & D3)]].
  - rewrite E', X' in B. destruct (B eq_refl).
  - left. exact D.
  - right. apply unexpired_false in D3 as (x & D3 & D4). exists a, x. auto.
Qed.

(** carol's approval for alice's collection has expired; their refused attempt removes it. *)
Example C20_removes_case :
  let e := from_ carol 9000000001 in
  snd (step e (OTransferFrom [tfrom alice bob 2]) demo2) = ABatch [Err EUnauthorized] /\
  collection_approval demo2 (acct alice) (acct carol) <> None /\
  collection_approval (fst (step e (OTransferFrom [tfrom alice bob 2]) demo2)) (acct alice) (acct carol) = None.
Proof. vm_compute. split; [reflexivity|]. split; [discriminate|reflexivity]. Qed.

(** ** C101: a message changes only the tokens it names *)

Lemma micro_meta_unnamed e o s s' t :
  wf s -> micro e o s s' -> ~ mentions t o -> is_Some (tokens s !! t) -> metas s' !! t = metas s !! t.
Proof.
  intros W M Hn [tok T]. destruct (micro_metas _ _ _ _ W M) as [->|[(l & -> & _ & R)|(t' & kvs & -> & _ & _ & R)]].
  - reflexivity.
  - apply mint_metadata_spec in R. destruct R as [R _]. apply R. left. eapply (wf_lt s W); eauto.
  - apply replace_metadata_spec in R. destruct R as [R _]. apply R. intros ->. apply Hn. reflexivity.
Qed.

Theorem C101_unnamed_token e o s t :
  reachable s -> is_Some (owners s !! t) -> ~ mentions t o ->
  let s' := fst (step e o s) in
  owners s' !! t = owners s !! t /\
  (forall sp, token_approval s' t sp = token_approval s t sp) /\
  (forall k, meta_of s' t k = meta_of s t k).
Proof.
  intros R Ho Hn. cbv zeta. pose proof (reachable_wf s R) as W.
  assert (is_Some (tokens s !! t)) as [tok T].
  { unfold owners in Ho. rewrite lookup_fmap in Ho. destruct (tokens s !! t); [eauto|]. destruct Ho; discriminate. }
  destruct (step_unmentioned e o s t tok W Hn T) as [T' A'].
  split; [unfold owners; rewrite !lookup_fmap, T', T; reflexivity|].
  split; [intros sp; unfold token_approval; rewrite A'; reflexivity|].
  assert (M : metas (fst (step e o s)) !! t = metas s !! t); [|intros k; unfold meta_of; rewrite M; reflexivity].
  clear A' T'. generalize (step_micros e o s). generalize (fst (step e o s)). intros s' H. clear R Ho. revert tok T.
  induction H as [s|s s1 s2 Hm _ IH]; intros tok T; [reflexivity|].
  rewrite (IH (wf_micro _ _ _ _ W Hm) tok); [|eapply micro_unmentioned; eauto].
  eapply micro_meta_unnamed; eauto.
Qed.

(** Over a whole history. *)
Theorem C101_unnamed_history h s t :
  reachable s -> is_Some (owners s !! t) -> Forall (fun x => ~ mentions t (snd x)) h ->
  owners (run h s) !! t = owners s !! t /\
  (forall sp, token_approval (run h s) t sp = token_approval s t sp) /\
  (forall k, meta_of (run h s) t k = meta_of s t k).
Proof.
  intros R Ho F. revert s R Ho. induction F as [|[e o] h Hn F IH]; intros s R Ho; [auto|]. cbn [run].
  destruct (C101_unnamed_token e o s t R Ho Hn) as (H1 & H2 & H3).
  assert (R' : reachable (fst (step e o s))).
  { destruct R as (c & u & a & s0 & h0 & I & ->). exists c, u, a, s0, (h0 ++ [(e, o)]). split; [exact I|].
    rewrite run_app. reflexivity. }
  destruct (IH _ R' ltac:(rewrite H1; exact Ho)) as (G1 & G2 & G3).
  rewrite G1, H1. split; [reflexivity|]. split; [intros sp; rewrite G2; apply H2|intros k; rewrite G3; apply H3].
Qed.

(** No message but a mint brings a token into being. *)
Theorem C101_no_token_from_nothing e o s t :
  reachable s -> owners s !! t = None -> (forall l, o <> OMint l) -> owners (fst (step e o s)) !! t = None.
Proof.
  intros R Ho Hm. pose proof (reachable_wf s R) as W.
  assert (T : tokens s !! t = None).
  { unfold owners in Ho. rewrite lookup_fmap in Ho. destruct (tokens s !! t); [discriminate|reflexivity]. }
  assert (T' : tokens (fst (step e o s)) !! t = None).
  { apply not_elem_of_dom. destruct (decide (is_burn o)) as [B|B].
    - destruct o; try contradiction. destruct (step e (OBurn tid) s) as [s' a] eqn:E.
      intros D. cbn [fst] in D. generalize (step_micros e (OBurn tid) s). rewrite E. cbn [fst]. intros M.
      apply elem_of_dom in D. destruct D as [x D].
      assert (G : forall s1 s2, micros e (OBurn tid) s1 s2 -> tokens s1 !! t = None -> tokens s2 !! t = None).
      { clear. intros s1 s2 M. remember (OBurn tid) as o eqn:O. induction M as [|s1 s2 s3 Hm _ IH]; intros T; [exact T|].
        apply IH. destruct Hm; try discriminate O; open_quiet; try exact T.
        cbn. rewrite lookup_delete_None. auto. }
      rewrite (G _ _ M T) in D. discriminate.
    - rewrite (step_dom e o s W); [|destruct o; simpl; try tauto; edestruct Hm; reflexivity|exact B].
      apply not_elem_of_dom. exact T. }
  unfold owners. rewrite lookup_fmap, T'. reflexivity.
Qed.

(** Collection approvals of an account change only through its own principal's calls, an accepted transfer_from of one of its
    tokens, or when a spender's own expired approval is met: see [C20_only_owner_approves_collection] and
    [C20_transfer_from_removes_collection]. *)
Example C101_example :
  reachable demo2 /\ is_Some (owners demo2 !! 1) /\
  Forall (fun x => ~ mentions 1 (snd x))
    [(from_ alice 3000000000, OTransfer [xfer bob 2]); (from_ admin 3000000001, OMint [mkMint (acct carol) None []]);
     (from_ bob 3000000002, OBurn 3)] /\
  (forall l, OTransfer [xfer bob 2] <> OMint l) /\ owners demo2 !! 4 = None.
Proof.
  split; [apply demo_reachable|]. split; [vm_compute; eauto|]. split; [|split; [discriminate|vm_compute; reflexivity]].
  repeat constructor; cbn.
  - intros (a & H & E). apply elem_of_list_singleton in H. subst a. discriminate.
  - tauto.
  - discriminate.
Qed.

(** ** C102: the collection always has an administrator *)

Lemma demo_locked p : ~ holds (fst (step (from_ admin 1) (ORevokePerm admin PManageAuthorities) demo0)) p PManageAuthorities.
Proof.
  rewrite step_revoke_perm.
  assert (has_permission demo0 (e_caller (from_ admin 1)) PManageAuthorities = true) as -> by (vm_compute; reflexivity).
  destruct (decide _) as [_|G]; [|destruct (G eq_refl)]. cbn [fst]. rewrite holds_revoke. intros [(l & H & _) Hn]. apply Hn.
  change (perms demo0) with ({[admin := all_permissions]} : gmap principal (list permission)) in H.
  apply lookup_singleton_Some in H as [<- _]. auto.
Qed.

(** The full claim: as long as somebody could once grant permissions, somebody always can.  It is false: the last holder can
    revoke their own permission, and then nobody can ever change any permission again. *)
Theorem C102_lockout_refuted :
  exists s e o, reachable s /\ holds s (e_caller e) PManageAuthorities /\ snd (step e o s) = AOk /\
    forall h p, ~ holds (run h (fst (step e o s))) p PManageAuthorities.
Proof.
  exists demo0, (from_ admin 1), (ORevokePerm admin PManageAuthorities).
  split; [apply (demo_reachable [])|]. split; [exists all_permissions; split; [vm_compute; reflexivity|vm_compute; right; left]|].
  split; [vm_compute; reflexivity|].
  intros h. generalize demo_locked. generalize (fst (step (from_ admin 1) (ORevokePerm admin PManageAuthorities) demo0)). intros s N.
  revert s N. induction h as [|[e o] h IH]; intros s N; [exact N|]. cbn [run]. apply IH. intros p H.
  destruct (step e o s) as [s' a] eqn:S. cbn [fst] in H.
  destruct (step_holds e o s s' a p PManageAuthorities S) as [I|(_ & I & _)]; [apply I in H; destruct (N p H)|destruct (N _ I)].
Qed.

(** The lock-out is complete: without a holder no permission of anybody changes any more. *)
Theorem C102_lockout_permanent h s p q :
  (forall p, ~ holds s p PManageAuthorities) -> holds (run h s) p q <-> holds s p q.
Proof.
  revert s. induction h as [|[e o] h IH]; intros s N; [reflexivity|]. cbn [run].
  destruct (step e o s) as [s' a] eqn:S. cbn [fst].
  assert (G : forall p q, holds s' p q <-> holds s p q).
  { intros p' q'. destruct (step_holds e o s s' a p' q' S) as [I|(_ & I & _)]; [exact I|destruct (N _ I)]. }
  rewrite IH; [apply G|]. intros p' H. apply G in H. destruct (N _ H).
Qed.

(** What holds: the last administrator goes only by their own successful revocation. *)
Theorem C102_last_holder_partial e o s s' a p :
  step e o s = (s', a) -> holds s p PManageAuthorities -> (forall p', ~ holds s' p' PManageAuthorities) ->
  a = AOk /\ o = ORevokePerm p PManageAuthorities /\ e_caller e = p /\
  forall p', holds s p' PManageAuthorities -> p' = p.
Proof.
  intros S H N.
  assert (G : forall p', holds s p' PManageAuthorities ->
    a = AOk /\ holds s (e_caller e) PManageAuthorities /\ o = ORevokePerm p' PManageAuthorities).
  { intros p' H'. destruct (step_holds e o s s' a p' PManageAuthorities S) as [I|(Ha & Hc & [[_ X]|[Ho _]])].
    - apply I in H'. destruct (N _ H').
    - destruct (N _ X).
    - auto. }
  destruct (G p H) as (G1 & G2 & G3). destruct (G _ G2) as (_ & _ & G4).
  assert (e_caller e = p) as Ec by congruence. split; [exact G1|]. split; [exact G3|]. split; [exact Ec|].
  intros p' H'. destruct (G p' H') as (_ & _ & G5). congruence.
Qed.

Example C102_example :
  let s1 := fst (step (from_ admin 1) (ORevokePerm admin PManageAuthorities) demo0) in
  holds demo0 admin PManageAuthorities /\ (forall p, ~ holds s1 p PManageAuthorities) /\
  snd (step (from_ admin 2) (OGrant admin PManageAuthorities) s1) = AReject "Caller does not have manage authorities permission".
Proof.
  split; [exists all_permissions; split; [vm_compute; reflexivity|vm_compute; right; left]|]. split; [|vm_compute; reflexivity].
  exact demo_locked.
Qed.

(** ** C103: no token belongs to the anonymous principal *)

(** The full claim is false: a mint accepts the anonymous account, and such a token can then be taken by anybody who calls
    without identifying themself. *)
Theorem C103_anonymous_owner_refuted :
  exists s t ow, reachable s /\ owners s !! t = Some ow /\ acc_owner ow = anonymous /\
    let x := step (from_ anonymous 1) (OTransferFrom [tfrom anonymous bob t]) s in
    snd x = ABatch [Ok 1] /\ owners (fst x) !! t = Some (acct bob).
Proof.
  exists (run [(from_ admin 0, OMint [mkMint (acct anonymous) None []])] demo0), 1, (acct anonymous).
  split; [apply demo_reachable|]. vm_compute. auto.
Qed.

(** What holds: if no mint names the anonymous principal, and no transfer_from names one of its subaccounts, it never owns
    anything; naming it in icrc7_transfer, or its default account in transfer_from, is harmless. *)
Theorem C103_anonymous_owner_partial caller url_ok a s0 h t ow :
  init caller url_ok a = Some s0 ->
  Forall (fun x => forall l, snd x = OMint l -> Forall (fun r => acc_owner (mr_owner r) <> anonymous) l) h ->
  Forall (fun x => forall l, snd x = OTransferFrom l ->
    Forall (fun r => acc_owner (tf_to r) = anonymous -> akey (tf_to r) = akey (mkAcc anonymous None)) l) h ->
  owners (run h s0) !! t = Some ow -> acc_owner ow <> anonymous.
Proof.
  intros I. pose proof (init_wf _ _ _ _ I) as W.
  assert (N : forall t ow, owner_of s0 t = Some ow -> acc_owner ow <> anonymous).
  { apply init_inv in I. destruct I as (_ & _ & _ & _ & ->). intros t' ow'. unfold owner_of. cbn. rewrite lookup_empty. discriminate. }
  clear I. rewrite owners_lookup. revert s0 W N. induction h as [|[e o] h IH]; intros s0 W N FM FT; [apply N|]. cbn [run].
  apply Forall_cons in FM as [M FM]. apply Forall_cons in FT as [T FT]. cbn [snd] in M, T.
  apply IH; [apply step_wf, W| |exact FM|exact FT]. intros t' ow' Ho Ha.
  refine (N t' ow' _ Ha).
  eapply (micros_recipient (fun x => acc_owner x = anonymous) e o s0 _ t' ow' W (step_micros e o s0)); [| | |exact Ho|exact Ha].
  - intros l b _ _ B. exact B.
  - intros l b -> Hb B X. apply B. specialize (T l eq_refl). rewrite Forall_forall in T. apply (T b Hb X).
  - intros l r -> Hr. specialize (M l eq_refl). rewrite Forall_forall in M. apply (M r Hr).
Qed.

Example C103_example :
  init admin (fun _ => true) demo_args = Some demo0 /\
  Forall (fun x => forall l, snd x = OMint l -> Forall (fun r => acc_owner (mr_owner r) <> anonymous) l)
    (demo1_h ++ [(from_ alice 5, OTransfer [xfer anonymous 1])]) /\
  snd (step (from_ alice 5) (OTransfer [xfer anonymous 1]) demo1) = ABatch [Err EInvalidRecipient].
Proof.
  split; [apply demo0_init|]. split; [|vm_compute; reflexivity].
  repeat constructor; cbn; intros l H; try discriminate. injection H as <-. repeat constructor; discriminate.
Qed.

(** ** C104: the memory of the rate limiter is bounded *)

(** A stranger's attempt on a token that does not exist. *)
Definition spam (t : N) : op := OTransferFrom [tfrom bob alice t].

Lemma spam_effect e s t :
  tokens s = ∅ -> let s' := fst (step e (spam t) s) in
  tokens s' = ∅ /\ dom (windows s') = {[t]} ∪ dom (windows s).
Proof.
  intros T. cbv zeta. unfold spam, step, icrc37_transfer_from, ans_batch. cbn [run_items].
  unfold transfer_from. rewrite guard_w_eq. cbv beta iota zeta. cbn [tf_tid tfrom tf_created verify_opt_timing].
  assert (D : dom (fst (guard_w (e_now e) t (windows s))) = {[t]} ∪ dom (windows s)).
  { unfold guard_w. destruct (_ <=? _); cbn [fst]; apply dom_insert_L. }
  destruct (snd _); cbn [negb]; cbv beta iota zeta.
  - change (tokens (set_windows (fst (guard_w (e_now e) t (windows s))) s)) with (tokens s). rewrite T, lookup_empty.
    cbn [fst]. split; [exact T|exact D].
  - cbn [fst]. split; [exact T|exact D].
Qed.

Definition spam_h (n : nat) : history := map (fun t => (from_ [77] 0, spam t)) (count_from 1 n).

(** The full claim is false: the limiter remembers every id that was ever named, and anybody may name ids. *)
Theorem C104_limiter_memory_refuted n :
  exists s h, reachable s /\ tokens s = ∅ /\
    Forall (fun x => e_caller (fst x) = [77] /\ forall q, ~ holds s [77] q) h /\
    tokens (run h s) = ∅ /\ size (windows (run h s)) = n.
Proof.
  exists demo0, (spam_h n). split; [apply (demo_reachable [])|]. split; [reflexivity|]. split.
  { unfold spam_h. apply Forall_map, Forall_true. intros t. split; [reflexivity|]. intros q (l & H & _). vm_compute in H. discriminate. }
  assert (G : forall k s, tokens s = ∅ -> (forall i, i ∈ dom (windows s) -> i < k) ->
    tokens (run (map (fun t => (from_ [77] 0, spam t)) (count_from k n)) s) = ∅ /\
    size (dom (windows (run (map (fun t => (from_ [77] 0, spam t)) (count_from k n)) s))) = (n + size (dom (windows s)))%nat).
  { induction n as [|n IH]; intros k s T B; [auto|]. cbn [count_from map run].
    destruct (spam_effect (from_ [77] 0) s k T) as [T' D].
    destruct (IH (k + 1) _ T') as [G1 G2].
    { rewrite D. intros i Hi. apply elem_of_union in Hi as [Hi|Hi]; [apply elem_of_singleton in Hi; lia|specialize (B _ Hi); lia]. }
    split; [exact G1|]. rewrite G2, D. rewrite size_union, size_singleton; [lia|].
    apply disjoint_singleton_l. intros Hi. specialize (B _ Hi). lia. }
  destruct (G 1 demo0 eq_refl) as [G1 G2].
  { intros i Hi. change (windows demo0) with (∅ : gmap N (list N)) in Hi. rewrite dom_empty in Hi. by apply elem_of_empty in Hi. }
  split; [exact G1|]. rewrite <- size_dom. unfold spam_h. rewrite G2.
  change (windows demo0) with (∅ : gmap N (list N)). rewrite dom_empty, size_empty. lia.
Qed.

(** What holds: for each id it remembers at most five times. *)
Theorem C104_limiter_memory_partial s t l : reachable s -> windows s !! t = Some l -> (length l <= 5)%nat.
Proof.
  intros (c & u & a & s0 & h & I & ->). apply init_inv in I. destruct I as (_ & _ & _ & _ & ->).
  assert (G : forall s, (forall t l, windows s !! t = Some l -> (length l <= 5)%nat) ->
    forall t l, windows (run h s) !! t = Some l -> (length l <= 5)%nat).
  { clear. induction h as [|[e o] h IH]; intros s B; [exact B|]. cbn [run]. apply IH.
    destruct (step e o s) as [s' x] eqn:E. apply step_win in E. cbn [fst]. revert B E.
    generalize (windows s), (windows s'), (attempts (mkEv s e o x s')). clear. intros w w' at_ B R.
    induction R as [|w tid b at_ w' _ _ IH]; [exact B|]. apply IH. intros t l. unfold guard_w.
    set (kept := filter (fun x => sat_sub (e_now e) x < window_ns) (default [] (w !! tid))).
    assert (K : (length kept <= 5)%nat).
    { unfold kept. etransitivity; [apply filter_length|]. destruct (w !! tid) as [y|] eqn:Y; cbn; [eapply B; eauto|lia]. }
    destruct (window_calls <=? nlen kept) eqn:W; cbn [fst].
    - destruct (decide (tid = t)) as [->|Hne]; [rewrite lookup_insert; congruence|rewrite lookup_insert_ne by exact Hne; apply B].
    - destruct (decide (tid = t)) as [->|Hne]; [rewrite lookup_insert|rewrite lookup_insert_ne by exact Hne; apply B].
      intros X. assert (l = kept ++ [e_now e]) as -> by congruence. rewrite app_length. cbn.
      apply N.leb_gt in W. unfold window_calls, nlen in W. lia. }
  apply G. cbn. intros t' l'. rewrite lookup_empty. discriminate.
Qed.

Example C104_example : size (windows (run (spam_h 3) demo0)) = 3%nat /\ windows demo2 !! 1 = Some [t0 + 1000000000].
Proof. vm_compute. auto. Qed.

Print Assumptions C20_transfer_from_removes.
Print Assumptions C20_transfer_from_removes_collection.
Print Assumptions C101_unnamed_token.
Print Assumptions C101_unnamed_history.
Print Assumptions C101_no_token_from_nothing.
Print Assumptions C102_lockout_refuted.
Print Assumptions C102_lockout_permanent.
Print Assumptions C102_last_holder_partial.
Print Assumptions C103_anonymous_owner_refuted.
Print Assumptions C103_anonymous_owner_partial.
Print Assumptions C104_limiter_memory_refuted.
Print Assumptions C104_limiter_memory_partial.
