(** Ownership: entitlement, exact effect of transfers, batches. *)
From Verif Require Import Base ModelPrincipal ModelState ModelIcrc7 ModelIcrc37 ModelManagement ModelLifecycle
  ModelQueries ModelStep ProofsItems ProofsManage ProofsMicro Spec ProofsCore.

Global Instance account_eqdec : EqDecision account.
Proof. solve_decision. Defined.

Lemma has_valid_iff now m sp : has_valid now m (akey sp) = true <-> approved_in m sp now.
Proof.
  unfold has_valid, approved_in, unexpired. split.
  - destruct m as [m|]; [|discriminate]. destruct (m !! akey sp) as [[k ap]|] eqn:E; [|discriminate].
    intros H. exists m, k, ap. split; [auto|split; [auto|]]. destruct (a_expires ap); [|exact I].
    apply N.ltb_lt. exact H.
  - intros (m' & k & ap & -> & -> & H). destruct (a_expires ap); [|reflexivity]. apply N.ltb_lt. exact H.
Qed.

Lemma owner_of_tokens s t : owner_of s t = t_owner <$> tokens s !! t.
Proof. reflexivity. Qed.

Lemma owners_lookup s t : owners s !! t = owner_of s t.
Proof. unfold owners. rewrite lookup_fmap. reflexivity. Qed.

(** ** Approvals only shrink while transfer_from runs *)
Lemma drop_expired_sub {K} `{Countable K} now (k : K) sp M k' m' :
  drop_expired now k sp M !! k' = Some m' -> exists m, M !! k' = Some m /\ m' ⊆ m.
Proof.
  unfold drop_expired. destruct (M !! k) as [m|] eqn:E; [|eauto].
  destruct (m !! sp) as [[k0 ap]|] eqn:E2; [|eauto].
  destruct (unexpired now ap); [eauto|].
  destruct (decide (k = k')) as [<-|Hne].
  - rewrite lookup_insert. intros [= <-]. exists m. split; [auto|]. apply delete_subseteq.
  - rewrite lookup_insert_ne by exact Hne. eauto.
Qed.

Lemma drop_expired_none {K} `{Countable K} now (k : K) sp M k' :
  M !! k' = None -> drop_expired now k sp M !! k' = None.
Proof.
  intros E. destruct (drop_expired now k sp M !! k') eqn:X; [|reflexivity].
  apply drop_expired_sub in X. destruct X as (m & Hm & _). congruence.
Qed.

Lemma approved_in_mono m m' sp now :
  (forall x, m' = Some x -> exists y, m = Some y /\ x ⊆ y) -> approved_in m' sp now -> approved_in m sp now.
Proof.
  intros Hs (x & k & ap & -> & Hx & He). destruct (Hs x eq_refl) as (y & -> & Hsub).
  exists y, k, ap. split; [auto|]. split; [|exact He]. eapply lookup_weaken; eauto.
Qed.

(** Relation: every set of approvals in the second state is part of that in the first. *)
Definition appr_sub (s s' : state) : Prop :=
  (forall t m', tok_appr s' !! t = Some m' -> exists m, tok_appr s !! t = Some m /\ m' ⊆ m) /\
  (forall k m', col_appr s' !! k = Some m' -> exists m, col_appr s !! k = Some m /\ m' ⊆ m).

Lemma appr_sub_refl s : appr_sub s s.
Proof. split; intros; eexists; split; eauto. Qed.

Lemma appr_sub_trans a b c : appr_sub a b -> appr_sub b c -> appr_sub a c.
Proof.
  intros [T1 C1] [T2 C2]. split.
  - intros t m Hm. destruct (T2 _ _ Hm) as (m1 & H1 & S1). destruct (T1 _ _ H1) as (m2 & H2 & S2).
    exists m2. split; [auto|]. etransitivity; eauto.
  - intros t m Hm. destruct (C2 _ _ Hm) as (m1 & H1 & S1). destruct (C1 _ _ H1) as (m2 & H2 & S2).
    exists m2. split; [auto|]. etransitivity; eauto.
Qed.

Lemma micro_appr_sub e l s s' : micro e (OTransferFrom l) s s' -> appr_sub s s'.
Proof.
  intros H. inversion H; subst; open_quiet;
    try (split; simpl; intros; eexists; split; eauto; fail).
  - split; simpl; intros t m' X; eapply drop_expired_sub; eauto.
  - split; simpl; intros t m' X; apply lookup_delete_Some in X; destruct X as [_ X]; eapply drop_expired_sub; eauto.
Qed.

(** ** C04 *)
Definition entitled (e : env) (o : op) (s : state) (t : N) (ow : account) : Prop :=
  acc_owner ow = e_caller e \/
  exists l a, o = OTransferFrom l /\ a ∈ l /\ tf_tid a = t /\
    (token_approved s t (mkAcc (e_caller e) (tf_spender_sub a)) (e_now e) \/
     collection_approved s ow (mkAcc (e_caller e) (tf_spender_sub a)) (e_now e)).

Lemma entitled_sub e o s s' t ow : micro e o s s' -> entitled e o s' t ow -> entitled e o s t ow.
Proof.
  intros H [E|(l & a & -> & Ha & Ht & E)]; [left; exact E|].
  right. exists l, a. split; [auto|]. split; [auto|]. split; [auto|].
  destruct (micro_appr_sub _ _ _ _ H) as [ST SC].
  destruct E as [E|E]; [left|right]; eapply approved_in_mono; try exact E; intros x Hx; eauto.
Qed.

Lemma micro_entitled e o s s' t ow :
  wf s -> micro e o s s' -> owner_of s t = Some ow -> owner_of s' t <> Some ow -> entitled e o s t ow.
Proof.
  intros W H Ho Hn. unfold owner_of in *.
  destruct (tokens s !! t) as [tok|] eqn:T; [|discriminate]. simpl in Ho. injection Ho as Ho.
  assert (Same : tokens s' = tokens s -> False).
  { intros E. apply Hn. rewrite E, T. simpl. congruence. }
  destruct H; open_quiet;
  try match goal with
  | |- context [continue _ ?p ?r _] => destruct p, r
  end; simpl in *; try (destruct (Same eq_refl); fail);
  try (destruct p, r; destruct (Same eq_refl); fail).
  - (* transfer *)
    pose proof (wf_id _ W _ _ H1) as Hid. left.
    destruct (decide (t_id nft = t)) as [E|Hne].
    + rewrite E in Hid. rewrite <- Hid in H1. congruence.
    + exfalso. apply Hn. rewrite lookup_insert_ne by exact Hne. rewrite T. simpl. congruence.
  - (* transfer_from *)
    pose proof (wf_id _ W _ _ H1) as Hid.
    destruct (decide (t_id nft = t)) as [E|Hne].
    2:{ exfalso. apply Hn. rewrite lookup_insert_ne by exact Hne. rewrite T. simpl. congruence. }
    rewrite E in Hid.
    assert (nft = tok) as -> by (rewrite <- Hid in H1; congruence).
    destruct H5 as [E0|[E0|E0]].
    + left. rewrite <- Ho. rewrite <- H4 in E0. unfold akey in E0. injection E0 as E0 _. symmetry. exact E0.
    + right. exists l, a. split; [auto|]. split; [auto|]. split; [symmetry; exact Hid|]. left.
      apply has_valid_iff in E0. unfold token_approved. rewrite Hid. exact E0.
    + right. exists l, a. split; [auto|]. split; [auto|]. split; [symmetry; exact Hid|]. right.
      apply has_valid_iff in E0. unfold collection_approved. rewrite <- Ho. exact E0.
  - (* mint *)
    exfalso. apply Hn. rewrite mint_tokens_lookup. destruct (decide _) as [D|D].
    + pose proof (wf_lt _ W _ _ T). lia.
    + rewrite T. simpl. congruence.
  - (* burn *)
    destruct (decide (tid = t)) as [->|Hne].
    + left. congruence.
    + exfalso. apply Hn. rewrite lookup_delete_ne by exact Hne. rewrite T. simpl. congruence.
Qed.

Lemma micros_entitled e o s s' t ow :
  wf s -> micros e o s s' -> owner_of s t = Some ow -> owner_of s' t <> Some ow -> entitled e o s t ow.
Proof.
  intros W H. induction H as [s|s s1 s2 Hm Hr IH]; intros Ho Hn; [contradiction|].
  assert (W1 : wf s1) by (eapply wf_micro; eauto).
  destruct (decide (owner_of s1 t = Some ow)) as [E|E].
  - eapply entitled_sub; [exact Hm|]. apply IH; auto.
  - eapply micro_entitled; eauto.
Qed.

Lemma step_entitled e o s t ow :
  wf s -> owner_of s t = Some ow -> owner_of (fst (step e o s)) t <> Some ow -> entitled e o s t ow.
Proof. intros W. eapply micros_entitled; eauto using step_micros. Qed.

(** ** C05: transfer_from leaves no token approval behind *)
Lemma micros_tok_none e l s s' t :
  micros e (OTransferFrom l) s s' -> tok_appr s !! t = None -> tok_appr s' !! t = None.
Proof.
  intros H. induction H as [s|s s1 s2 Hm _ IH]; intros E; [auto|]. apply IH.
  destruct (tok_appr s1 !! t) as [m|] eqn:X; [|reflexivity].
  destruct (micro_appr_sub _ _ _ _ Hm) as [ST _]. destruct (ST _ _ X) as (y & Hy & _). congruence.
Qed.

Lemma transfer_from_items_micros e l l' s s' bs :
  run_items (transfer_from e) s l' = Some (s', bs) -> (forall a, a ∈ l' -> a ∈ l) -> micros e (OTransferFrom l) s s'.
Proof.
  intros R Hin. eapply micros_items; [|exact R]. intros s2 a s2' b Ha Hf.
  destruct (transfer_from_inv _ _ _ _ _ Hf) as
      [[Q _]|[(nft & s3 & er & _ & Q & T & ->)|(nft & s3 & i & _ & Q & T & _ & H1 & H2 & H3 & H4 & ->)]].
  - apply micro_quiet; auto.
  - apply rtc_once. eapply mi_drop; eauto.
  - apply rtc_once. eapply mi_transfer_from; eauto.
Qed.

Lemma transfer_from_clears e s l s' bs k a i :
  step e (OTransferFrom l) s = (s', ABatch bs) -> l !! k = Some a -> bs !! k = Some (Ok i) ->
  tok_appr s' !! tf_tid a = None.
Proof.
  simpl. unfold icrc37_transfer_from. destruct (run_items _ _ _) as [[s1 bs1]|] eqn:R; [|discriminate].
  simpl. intros [= <- <-] Hk Hb.
  assert (Hl : l = take k l ++ a :: drop (S k) l) by (symmetry; apply take_drop_middle; exact Hk).
  rewrite Hl, run_items_app in R.
  destruct (run_items (transfer_from e) s (take k l)) as [[sk bk]|] eqn:Rk; [|discriminate].
  cbn [run_items] in R. destruct (transfer_from e sk a) as [[sk' b]|] eqn:F; [|discriminate].
  destruct (run_items (transfer_from e) sk' (drop (S k) l)) as [[s3 b3]|] eqn:R3; [|discriminate].
  injection R as <- <-.
  pose proof (run_items_length _ _ _ _ _ Rk) as Lk. rewrite take_length in Lk.
  assert (k < length l)%nat by (eapply lookup_lt_Some; eauto).
  rewrite lookup_app_r in Hb by lia. replace (k - length bk)%nat with 0%nat in Hb by lia.
  simpl in Hb. injection Hb as ->.
  eapply (micros_tok_none e (drop (S k) l)); [eapply transfer_from_items_micros; eauto|].
  destruct (transfer_from_inv _ _ _ _ _ F) as
      [[_ [er X]]|[(nft & s4 & er & X & _)|(nft & s4 & j & _ & Q & T & _ & _ & _ & _ & _ & ->)]]; try discriminate.
  simpl. apply lookup_delete.
Qed.

(** ** Exact effect of single items *)

(** Everything but the rate limiter's memory is the same. *)
Definition ledger_same (s s' : state) : Prop :=
  cfg s' = cfg s /\ perms s' = perms s /\ tokens s' = tokens s /\ by_owner s' = by_owner s /\
  last_id s' = last_id s /\ redirs s' = redirs s /\ subs s' = subs s /\ tok_appr s' = tok_appr s /\
  col_appr s' = col_appr s /\ metas s' = metas s /\ guards s' = guards s /\ files s' = files s /\ log s' = log s /\
  pend s' = pend s.

Lemma quiet_ledger_same s s' : quiet s s' -> ledger_same s s'.
Proof. intros (w & n & ->). repeat split. Qed.

Lemma usize_try_one mx : usize_try mx = Some 0 \/ usize_try mx = None \/ (usize_try mx = Some mx /\ 1 <= mx).
Proof.
  unfold usize_try. destruct (mx <? two32); [|auto]. destruct mx; [auto|]. right; right. split; [auto|lia].
Qed.

(** A one-element icrc7_transfer with a one-element answer either was refused as a whole or ran the item. *)
Lemma step_transfer_single e a s s' r :
  step e (OTransfer [a]) s = (s', ABatch [r]) ->
  (s' = s /\ exists er, r = Err er) \/ (e_caller e <> anonymous /\ transfer_nft e s a = Some (s', r)).
Proof.
  simpl. unfold icrc7_transfer. destruct (usize_try _) as [mx|] eqn:U; [|discriminate].
  destruct (_ && _) eqn:At; [intros [= <- <-]; left; eauto|].
  destruct (bool_decide (e_caller e = anonymous)) eqn:An; [intros [= <- <-]; left; eauto|].
  apply bool_decide_eq_false in An.
  unfold take_n. change (nlen [a]) with 1.
  destruct (N.to_nat (N.min mx 1)) as [|k]; [cbn; discriminate|].
  cbn [firstn]. rewrite firstn_nil. cbn [run_items].
  destruct (transfer_nft e s a) as [[s1 b]|] eqn:F; cbn; [|discriminate].
  intros [= <- <-]. right. auto.
Qed.

Lemma transfer_ok_effect e a s s' i :
  wf s -> step e (OTransfer [a]) s = (s', ABatch [Ok i]) ->
  (ledger_same s s' /\ exists k t, e_log e k t = LDup i) \/
  (exists ow, owner_of s (ta_tid a) = Some ow /\ acc_owner ow = e_caller e /\
     owners s' = <[ta_tid a := ta_to a]> (owners s) /\
     log s' = log s ++ [(i, mkTx "7xfer" (e_now e) (Some (ta_tid a)) (Some ow) (Some (ta_to a)) None None None
                              (ta_memo a) (Some (default (e_now e) (ta_created a))))] /\
     cfg s' = cfg s /\ perms s' = perms s /\ metas s' = metas s /\ tok_appr s' = tok_appr s /\ col_appr s' = col_appr s /\
     files s' = files s /\ redirs s' = redirs s).
Proof.
  intros W H. apply step_transfer_single in H. destruct H as [[_ [er X]]|[An H]]; [discriminate|].
  destruct (transfer_nft_inv _ _ _ _ _ H) as
      [[_ [er X]]|[(nft & n & [= <-] & Q & TC & k & L)|(nft & j & s2 & [= <-] & Q & (T & O1 & O2 & O3 & CM & _) & ->)]];
    [discriminate| |].
  - left. split; [apply quiet_ledger_same; exact Q|eauto].
  - right. exists (t_owner nft). open_quiet. pose proof (wf_id _ W _ _ T) as Hid.
    unfold owner_of. rewrite T. split; [reflexivity|]. split; [exact O1|].
    split; [|repeat split].
    unfold owners. simpl. rewrite Hid, fmap_insert. reflexivity.
Qed.

Lemma transfer_err_effect e a s s' er :
  step e (OTransfer [a]) s = (s', ABatch [Err er]) -> ledger_same s s'.
Proof.
  intros H. apply step_transfer_single in H. destruct H as [[-> _]|[An H]].
  - apply quiet_ledger_same, quiet_refl.
  - destruct (transfer_nft_inv _ _ _ _ _ H) as [[Q _]|[(? & ? & X & _)|(? & ? & ? & X & _)]]; try discriminate.
    apply quiet_ledger_same. exact Q.
Qed.

Lemma step_transfer_from_single e a s s' r :
  step e (OTransferFrom [a]) s = (s', ABatch [r]) -> transfer_from e s a = Some (s', r).
Proof.
  simpl. unfold icrc37_transfer_from. cbn [run_items].
  destruct (transfer_from e s a) as [[s1 b]|]; simpl; [|discriminate]. intros [= <- <-]. reflexivity.
Qed.

Lemma transfer_from_ok_effect e a s s' i :
  wf s -> step e (OTransferFrom [a]) s = (s', ABatch [Ok i]) ->
  exists ow, owner_of s (tf_tid a) = Some ow /\ akey ow = akey (tf_from a) /\
     owners s' = <[tf_tid a := tf_to a]> (owners s) /\
     log s' = log s ++ [(i, mkTx "37xfer" (e_now e) (Some (tf_tid a)) (Some (tf_from a)) (Some (tf_to a))
                              (Some (mkAcc (e_caller e) (tf_spender_sub a))) None None (tf_memo a) (tf_created a))] /\
     cfg s' = cfg s /\ perms s' = perms s /\ metas s' = metas s /\ files s' = files s /\ redirs s' = redirs s.
Proof.
  intros W H. apply step_transfer_from_single in H.
  destruct (transfer_from_inv _ _ _ _ _ H) as
      [[_ [er X]]|[(nft & s4 & er & X & _)|(nft & s4 & j & [= <-] & Q & T & _ & _ & _ & O & _ & ->)]]; try discriminate.
  exists (t_owner nft). open_quiet. pose proof (wf_id _ W _ _ T) as Hid.
  unfold owner_of. rewrite T. split; [reflexivity|]. split; [exact O|].
  split; [|repeat split].
  unfold owners. simpl. rewrite Hid, fmap_insert. reflexivity.
Qed.

Lemma transfer_from_err_effect e a s s' er :
  step e (OTransferFrom [a]) s = (s', ABatch [Err er]) ->
  tokens s' = tokens s /\ by_owner s' = by_owner s /\ log s' = log s /\ metas s' = metas s /\ cfg s' = cfg s /\
  perms s' = perms s /\ appr_sub s s'.
Proof.
  intros H. apply step_transfer_from_single in H.
  destruct (transfer_from_inv _ _ _ _ _ H) as
      [[Q _]|[(nft & s4 & er' & _ & Q & T & ->)|(nft & s4 & j & X & _)]]; [| |discriminate].
  - open_quiet. repeat split; intros; eexists; split; eauto.
  - open_quiet. simpl. repeat split; simpl; intros; eapply drop_expired_sub; eauto.
Qed.

Lemma approve_err_effect e a s s' er :
  step e (OApproveTokens [a]) s = (s', ABatch [Err er]) -> ledger_same s s'.
Proof.
  simpl. unfold icrc37_approve_tokens. cbn [run_items].
  destruct (approve_token e s a) as [[s1 b]|] eqn:F; simpl; [|discriminate]. intros [= <- ->].
  destruct (approve_token_inv _ _ _ _ _ F) as [[Q _]|(? & ? & ? & X & _)]; [|discriminate].
  apply quiet_ledger_same. exact Q.
Qed.

Lemma approve_coll_err_effect e a s s' er :
  step e (OApproveCollection [a]) s = (s', ABatch [Err er]) -> ledger_same s s'.
Proof.
  simpl. unfold icrc37_approve_collection. cbn [run_items].
  destruct (approve_collection e s a) as [[s1 b]|] eqn:F; simpl; [|discriminate]. intros [= <- ->].
  destruct (approve_collection_inv _ _ _ _ _ F) as [[Q _]|(? & ? & X & _)]; [|discriminate].
  apply quiet_ledger_same. exact Q.
Qed.

Lemma usize_limit_pos o : o <> Some 0 -> 1 <= usize_limit o.
Proof.
  intros H. unfold usize_limit, usize_try, default_max_appr. destruct o as [n|]; simpl.
  - destruct (n <? two32); simpl; [|lia]. destruct n; [congruence|lia].
  - lia.
Qed.

Lemma step_revoke_single e a s s' r :
  step e (ORevokeTokens [a]) s = (s', ABatch [r]) ->
  exists s1, quiet s s1 /\ revoke_token_approvals e s1 a = Some (s', r).
Proof.
  simpl. destruct (guard_sliding_window _ _ _) as [s1 pass] eqn:G.
  pose proof (guard_quiet _ _ _ _ _ G) as Q. destruct pass; cbn [negb]; [|discriminate].
  unfold take_n. change (nlen [a]) with 1.
  destruct (N.to_nat (N.min _ 1)) as [|k]; [cbn; discriminate|].
  cbn [firstn]. rewrite firstn_nil. cbn [run_items].
  destruct (revoke_token_approvals e s1 a) as [[s2 b]|] eqn:F; cbn; [|discriminate].
  intros [= <- <-]. eauto.
Qed.

Lemma revoke_err_effect e a s s' er :
  step e (ORevokeTokens [a]) s = (s', ABatch [Err er]) -> ledger_same s s'.
Proof.
  intros H. apply step_revoke_single in H. destruct H as (s1 & Q & F).
  destruct (revoke_token_inv _ _ _ _ _ F) as [[Q2 _]|(? & ? & ? & ? & X & _)]; [|discriminate].
  apply quiet_ledger_same. eapply quiet_trans; eauto.
Qed.

Lemma step_revoke_coll_single e a s s' r :
  step e (ORevokeCollection [a]) s = (s', ABatch [r]) -> revoke_collection_approvals e s a = Some (s', r).
Proof.
  simpl. unfold icrc37_revoke_collection_approvals.
  unfold take_n. change (nlen [a]) with 1.
  destruct (N.to_nat (N.min _ 1)) as [|k]; [cbn; discriminate|].
  cbn [firstn]. rewrite firstn_nil. cbn [run_items].
  destruct (revoke_collection_approvals e s a) as [[s2 b]|] eqn:F; cbn; [|discriminate].
  intros [= <- <-]. eauto.
Qed.

Lemma revoke_coll_err_effect e a s s' er :
  step e (ORevokeCollection [a]) s = (s', ABatch [Err er]) -> ledger_same s s'.
Proof.
  intros H. apply step_revoke_coll_single in H.
  destruct (revoke_collection_inv _ _ _ _ _ H) as [[Q2 _]|(? & ? & ? & X & _)]; [|discriminate].
  apply quiet_ledger_same. exact Q2.
Qed.

Lemma burn_err_effect e t s s' er : step e (OBurn t) s = (s', AErr er) -> ledger_same s s'.
Proof.
  intros H. pose proof (step_burn_other e t s) as Q. rewrite H in Q. apply quiet_ledger_same, Q. discriminate.
Qed.

(** ** C17: a batch is the sequence of its items *)
Lemma transfer_item_cfg e s a s' r : transfer_nft e s a = Some (s', r) -> cfg s' = cfg s.
Proof.
  intros H. destruct (transfer_nft_inv _ _ _ _ _ H) as
      [[Q _]|[(nft & n & _ & Q & T & _)|(nft & j & s2 & _ & Q & TC & ->)]];
    open_quiet; reflexivity.
Qed.

Lemma transfer_items_cfg e l s s' bs : run_items (transfer_nft e) s l = Some (s', bs) -> cfg s' = cfg s.
Proof.
  intros H. apply (run_items_ind (transfer_nft e) (fun _ => True) (fun a b => cfg b = cfg a)) in H; auto.
  - apply H.
  - congruence.
  - intros. split; auto. eapply transfer_item_cfg; eauto.
Qed.

(** How many items of a batch are processed. *)
Definition processed (s : state) {A} (l : list A) : nat :=
  N.to_nat (N.min (default default_max_update (c_max_update (cfg s))) (nlen l)).

Lemma transfer_batch_inv e l s s' bs :
  step e (OTransfer l) s = (s', ABatch bs) -> e_caller e <> anonymous ->
  (default false (c_atomic (cfg s)) = true -> nlen l <= default default_max_update (c_max_update (cfg s))) ->
  run_items (transfer_nft e) s (take (processed s l) l) = Some (s', bs) /\
  (l <> [] -> usize_try (default default_max_update (c_max_update (cfg s))) =
                Some (default default_max_update (c_max_update (cfg s)))).
Proof.
  intros H An At. simpl in H. unfold icrc7_transfer in H. destruct l as [|a0 l0].
  { injection H as <- <-. simpl. split; [destruct (processed s []); reflexivity|congruence]. }
  set (l := a0 :: l0) in *.
  destruct (usize_try _) as [mx|] eqn:U; [|discriminate].
  assert (mx = default default_max_update (c_max_update (cfg s))) as ->.
  { unfold usize_try in U. destruct (_ <? _) in U; [congruence|discriminate]. }
  rewrite (bool_decide_eq_false_2 _ An) in H.
  assert (X : default false (c_atomic (cfg s)) && (default default_max_update (c_max_update (cfg s)) <? nlen l) = false).
  { destruct (default false (c_atomic (cfg s))) eqn:E; [|reflexivity]. simpl. apply N.ltb_ge. auto. }
  rewrite X in H. unfold take_n in H. fold (processed s l) in H.
  destruct (run_items _ _ _) as [[s1 b1]|] eqn:R; [|discriminate]. injection H as <- <-.
  split; auto.
Qed.

Lemma transfer_batch_of_items e l s s' bs :
  run_items (transfer_nft e) s l = Some (s', bs) -> e_caller e <> anonymous ->
  usize_try (default default_max_update (c_max_update (cfg s))) =
                Some (default default_max_update (c_max_update (cfg s))) ->
  nlen l <= default default_max_update (c_max_update (cfg s)) ->
  step e (OTransfer l) s = (s', ABatch bs).
Proof.
  intros R An U L. simpl. unfold icrc7_transfer. destruct l as [|a0 l0].
  { simpl in R. injection R as <- <-. reflexivity. }
  set (l := a0 :: l0) in *. rewrite U.
  assert (X : (default default_max_update (c_max_update (cfg s)) <? nlen l) = false) by (apply N.ltb_ge; auto).
  rewrite X, andb_false_r, (bool_decide_eq_false_2 _ An). unfold take_n.
  replace (N.to_nat (N.min (default default_max_update (c_max_update (cfg s))) (nlen l))) with (length l)
    by (unfold nlen in *; lia).
  rewrite firstn_all, R. reflexivity.
Qed.

Lemma transfer_batch_positional e l s s' bs :
  step e (OTransfer l) s = (s', ABatch bs) -> e_caller e <> anonymous ->
  (default false (c_atomic (cfg s)) = true -> nlen l <= default default_max_update (c_max_update (cfg s))) ->
  length bs = processed s l /\
  forall k a b, l !! k = Some a -> bs !! k = Some b ->
    exists sk sk', step e (OTransfer (take k l)) s = (sk, ABatch (take k bs)) /\
                   step e (OTransfer [a]) sk = (sk', ABatch [b]) /\
                   step e (OTransfer (take (S k) l)) s = (sk', ABatch (take (S k) bs)).
Proof.
  intros H An At. destruct (transfer_batch_inv _ _ _ _ _ H An At) as [R U].
  pose proof (run_items_length _ _ _ _ _ R) as L.
  assert (Lp : length (take (processed s l) l) = processed s l).
  { rewrite take_length. unfold processed, nlen. lia. }
  split; [congruence|].
  intros k a b Hk Hb.
  assert (Kp : (k < processed s l)%nat) by (apply lookup_lt_Some in Hb; lia).
  assert (Ne : l <> []) by (intros ->; rewrite lookup_nil in Hk; discriminate).
  specialize (U Ne).
  assert (Hl : take (processed s l) l = take k l ++ a :: drop (S k) (take (processed s l) l)).
  { rewrite <- (take_drop_middle (take (processed s l) l) k a) at 1.
    - rewrite take_take. replace (k `min` processed s l)%nat with k by lia. reflexivity.
    - rewrite lookup_take by lia. exact Hk. }
  rewrite Hl, run_items_app in R.
  destruct (run_items (transfer_nft e) s (take k l)) as [[sk bk]|] eqn:Rk; [|discriminate].
  cbn [run_items] in R. destruct (transfer_nft e sk a) as [[sk' b']|] eqn:F; [|discriminate].
  destruct (run_items (transfer_nft e) sk' _) as [[s3 b3]|] eqn:R3; [|discriminate].
  injection R as <- <-.
  pose proof (run_items_length _ _ _ _ _ Rk) as Lk. rewrite take_length in Lk.
  assert (k < length l)%nat by (eapply lookup_lt_Some; eauto).
  assert (Lbk : length bk = k) by lia.
  rewrite lookup_app_r in Hb by lia. replace (k - length bk)%nat with 0%nat in Hb by lia.
  simpl in Hb. injection Hb as ->.
  assert (Bound : N.of_nat (processed s l) <= default default_max_update (c_max_update (cfg s)))
    by (unfold processed; lia).
  exists sk, sk'. repeat split.
  - rewrite take_app_alt by auto. eapply transfer_batch_of_items; eauto.
    unfold nlen. rewrite take_length. lia.
  - pose proof (transfer_items_cfg _ _ _ _ _ Rk) as C.
    apply transfer_batch_of_items; [cbn; rewrite F; reflexivity|auto|rewrite C; exact U|].
    rewrite C. unfold nlen. simpl. lia.
  - replace (take (S k) (bk ++ b :: b3)) with (bk ++ [b]).
    2:{ change (b :: b3) with ([b] ++ b3). rewrite app_assoc.
        rewrite (take_app_alt (bk ++ [b]) b3); [reflexivity|]. rewrite app_length. simpl. lia. }
    apply transfer_batch_of_items; auto.
    + rewrite (take_S_r _ _ _ Hk), run_items_app, Rk. cbn. rewrite F. reflexivity.
    + unfold nlen. rewrite take_length. lia.
Qed.

(** ** C16: memos *)
Lemma check_memo_bound s m : check_memo s (Some m) = Some true ->
  nlen m <= default default_max_memo (c_max_memo (cfg s)).
Proof.
  unfold check_memo, usize_try. destruct (_ <? two32); [|discriminate].
  intros [= H]. apply N.leb_le. exact H.
Qed.

Lemma check_memos_all s l r m :
  check_memos s l = Some true -> r ∈ l -> mr_memo r = Some m ->
  nlen m <= default default_max_memo (c_max_memo (cfg s)).
Proof.
  induction l as [|x l IH]; intros H Hr Hm; [apply elem_of_nil in Hr; contradiction|].
  simpl in H. destruct (check_memo s (mr_memo x)) as [[|]|] eqn:C; try discriminate.
  apply elem_of_cons in Hr. destruct Hr as [->|Hr]; [|auto].
  rewrite Hm in C. apply check_memo_bound. exact C.
Qed.

(** ** C12, C13: recipients *)
Lemma micros_recipient (bad : account -> Prop) e o s s' t ow :
  wf s -> micros e o s s' ->
  (forall l a, o = OTransfer l -> a ∈ l -> acc_owner (ta_to a) <> anonymous -> ~ bad (ta_to a)) ->
  (forall l a, o = OTransferFrom l -> a ∈ l -> akey (tf_to a) <> akey anonymous_account -> ~ bad (tf_to a)) ->
  (forall l r, o = OMint l -> r ∈ l -> ~ bad (mr_owner r)) ->
  owner_of s' t = Some ow -> bad ow -> owner_of s t = Some ow.
Proof.
  intros W H Bt Bf Bm. induction H as [s|s s1 s2 Hm _ IH]; intros Ho Hb; [exact Ho|].
  assert (W1 : wf s1) by (eapply wf_micro; eauto). specialize (IH W1 Ho Hb).
  clear Ho. revert IH. unfold owner_of.
  destruct Hm; open_quiet; try (destruct p, r); try (intros X; exact X); simpl.
  - destruct (decide (t_id nft = t)) as [->|Hne].
    + rewrite lookup_insert. simpl. intros [= <-]. exfalso. eapply Bt; eauto.
    + rewrite lookup_insert_ne by exact Hne. auto.
  - destruct (decide (t_id nft = t)) as [->|Hne].
    + rewrite lookup_insert. simpl. intros [= <-]. exfalso. eapply Bf; eauto.
    + rewrite lookup_insert_ne by exact Hne. auto.
  - rewrite mint_tokens_lookup. destruct (decide _) as [D|D]; [|auto].
    destruct (l !! _) as [r|] eqn:L; simpl; [|discriminate]. intros [= <-]. exfalso.
    eapply Bm; eauto using elem_of_list_lookup_2.
  - destruct (decide (tid = t)) as [->|Hne].
    + rewrite lookup_delete. discriminate.
    + rewrite lookup_delete_ne by exact Hne. auto.
Qed.

Lemma transfer_ok_checked e a s s' i :
  step e (OTransfer [a]) s = (s', ABatch [Ok i]) -> e_caller e <> anonymous /\ exists nft, transfer_checked e s a nft.
Proof.
  intros H. apply step_transfer_single in H. destruct H as [[_ [er X]]|[An H]]; [discriminate|].
  destruct (transfer_nft_inv _ _ _ _ _ H) as
      [[_ [er X]]|[(nft & n & _ & Q & TC & _)|(nft & j & s2 & _ & Q & TC & _)]]; [discriminate| |]; eauto.
Qed.

Lemma transfer_anonymous_caller e l s : e_caller e = anonymous -> fst (step e (OTransfer l) s) = s.
Proof.
  intros An. simpl. unfold icrc7_transfer. destruct l; [reflexivity|].
  destruct (usize_try _); [|reflexivity]. destruct (_ && _); [reflexivity|].
  rewrite bool_decide_eq_true_2 by exact An. reflexivity.
Qed.
