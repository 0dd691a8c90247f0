(** C09, C10, C12, C14-C16, C92 for the items of a batch. *)
From Verif Require Import Base ModelPrincipal ModelState ModelIcrc7 ModelIcrc37 ModelManagement ModelLifecycle
  ModelQueries ModelStep ProofsItems ProofsManage ProofsMicro Spec ProofsCore ProofsOwner ProofsTime ProofsLock ProofsUploads Scenario
  PropertiesLedger PropertiesBatch PropertiesLive PropertiesReasons PropertiesUploadLive.

Lemma step_cfg e o s : token_call o -> cfg (fst (step e o s)) = cfg s.
Proof.
  intros H. apply (step_rel (fun _ => True) (fun a b => cfg b = cfg a) e o s); [reflexivity|congruence| |exact I].
  intros x y _ M. split; [exact I|]. micro_split M; try reflexivity; exfalso; try contradiction;
    destruct o; try contradiction; naive_solver.
Qed.

Lemma step_cfg_at e o s s' a : token_call o -> step e o s = (s', a) -> cfg s' = cfg s.
Proof. intros H E. pose proof (step_cfg e o s H) as X. rewrite E in X. exact X. Qed.

Lemma step_reachable e o s s' a : reachable s -> step e o s = (s', a) -> reachable s'.
Proof.
  intros (caller & url_ok & x & s0 & h & Hi & ->) E. exists caller, url_ok, x, s0, (h ++ [(e, o)]). split; [exact Hi|].
  rewrite run_app. cbn [run]. rewrite E. reflexivity.
Qed.

(** An answer [Ok] in a batch of transfers is the answer of an item. *)
Lemma transfer_ok_batch e l s s' bs k i :
  step e (OTransfer l) s = (s', ABatch bs) -> bs !! k = Some (Ok i) ->
  e_caller e <> anonymous /\
  (default false (c_atomic (cfg s)) = true -> nlen l <= default 100 (c_max_update (cfg s))).
Proof.
  intros H Hk. cbn [step] in H. unfold icrc7_transfer, ans_batch in H.
  destruct l as [|a l]; [injection H as <- <-; rewrite lookup_nil in Hk; discriminate|].
  destruct (usize_try _) as [mx|] eqn:U; [|discriminate].
  assert (one : forall er, [Err er] !! k = Some (Ok i) -> False).
  { intros er. destruct k; [discriminate|]. rewrite lookup_cons_ne_0 by lia. simpl. rewrite lookup_nil. discriminate. }
  destruct (_ && _) eqn:At; [injection H as <- <-; destruct (one _ Hk)|].
  destruct (bool_decide _) eqn:B; [injection H as <- <-; destruct (one _ Hk)|].
  apply bool_decide_eq_false in B. split; [exact B|]. intros Ha. rewrite Ha in At. simpl in At. apply N.ltb_ge in At.
  unfold usize_try in U. destruct (_ <? two32) in U; [|discriminate]. injection U as <-. exact At.
Qed.

Lemma transfer_item e l s s' bs k a i :
  step e (OTransfer l) s = (s', ABatch bs) -> l !! k = Some a -> bs !! k = Some (Ok i) ->
  exists sk sk', step e (OTransfer (take k l)) s = (sk, ABatch (take k bs)) /\
    step e (OTransfer [a]) sk = (sk', ABatch [Ok i]) /\
    step e (OTransfer (take (S k) l)) s = (sk', ABatch (take (S k) bs)) /\ cfg sk = cfg s.
Proof.
  intros H Ha Hk. destruct (transfer_ok_batch _ _ _ _ _ _ _ H Hk) as [An At].
  destruct (C17_batch_positional _ _ _ _ _ H An At) as [_ P]. destruct (P _ _ _ Ha Hk) as (sk & sk' & A & B & C).
  exists sk, sk'. splits; auto. eapply step_cfg_at; [|exact A]. exact I.
Qed.

(** ** C12, C14, C16: every accepted transfer of a batch *)

Theorem C14_batch_time_window e l s s' bs k a i :
  step e (OTransfer l) s = (s', ABatch bs) -> l !! k = Some a -> bs !! k = Some (Ok i) ->
  default (e_now e) (ta_created a) <= e_now e + default 50000000 (c_drift (cfg s)) /\
  e_now e <= default (e_now e) (ta_created a) +
             default 10000000000 (c_tx_window (cfg s)) + default 50000000 (c_drift (cfg s)).
Proof.
  intros H Ha Hk. destruct (transfer_item _ _ _ _ _ _ _ _ H Ha Hk) as (sk & sk' & _ & B & _ & <-).
  exact (C14_transfer_time_window _ _ _ _ _ B).
Qed.
Print Assumptions C14_batch_time_window.

Theorem C16_batch_memo_limit e l s s' bs k a i m :
  step e (OTransfer l) s = (s', ABatch bs) -> l !! k = Some a -> bs !! k = Some (Ok i) -> ta_memo a = Some m ->
  nlen m <= default 1000000 (c_max_memo (cfg s)).
Proof.
  intros H Ha Hk. destruct (transfer_item _ _ _ _ _ _ _ _ H Ha Hk) as (sk & sk' & _ & B & _ & <-).
  exact (proj1 (C16_memo_limit e sk sk') a i m B).
Qed.
Print Assumptions C16_batch_memo_limit.

(** The owner is the one the items before left. *)
Theorem C12_batch_no_self_transfer e l s s' bs k a i :
  step e (OTransfer l) s = (s', ABatch bs) -> l !! k = Some a -> bs !! k = Some (Ok i) ->
  e_caller e <> anonymous /\ acc_owner (ta_to a) <> anonymous /\
  exists sk ow, step e (OTransfer (take k l)) s = (sk, ABatch (take k bs)) /\
    owner_of sk (ta_tid a) = Some ow /\ acc_owner ow = e_caller e /\ akey ow <> akey (ta_to a).
Proof.
  intros H Ha Hk. destruct (transfer_item _ _ _ _ _ _ _ _ H Ha Hk) as (sk & sk' & A & B & _ & _).
  destruct (C12_no_self_transfer _ _ _ _ _ B) as (X & Y & ow & Z). splits; auto. exists sk, ow. auto.
Qed.
Print Assumptions C12_batch_no_self_transfer.

(** Of four transfers the second is too old and the fourth has a memo that is too long. *)
Definition mixed : list transfer_arg :=
  [mkTransferArg (acct bob) 1 None None (Some (t0 + 29000000000)); mkTransferArg (acct bob) 2 None None (Some t0);
   mkTransferArg (acct bob) 2 (Some [1; 2; 3]) None None; mkTransferArg (acct bob) 3 (Some (replicate 33 0)) None None].
Example C14_batch_example :
  snd (step (from_ alice 30000000000) (OTransfer mixed) demo2) = ABatch [Ok 5; Err ETooOld; Ok 6; Err (EGeneric 0 "Exceeds Max Memo Size")].
Proof. vm_compute. reflexivity. Qed.

(** ** Items of the other batches *)

Lemma batch_item {A} (call : list A -> op) e s l n bs k a b :
  (forall x, token_call (call x)) -> item_by_item call e s l n bs -> l !! k = Some a -> bs !! k = Some b ->
  exists sk sk', step e (call (take k l)) s = (sk, ABatch (take k bs)) /\
    step e (call [a]) sk = (sk', ABatch [b]) /\ cfg sk = cfg s.
Proof.
  intros T [_ I] Ha Hb. destruct (I _ _ _ Ha Hb) as (sk & sk' & A1 & B & _). exists sk, sk'. splits; auto.
  eapply step_cfg_at; [|exact A1]. apply T.
Qed.

Lemma revoke_item e l s s' bs k a b :
  step e (ORevokeTokens l) s = (s', ABatch bs) -> l !! k = Some a -> bs !! k = Some b ->
  exists sk sk', ((k = 0%nat /\ ledger_same s sk) \/ step e (ORevokeTokens (take k l)) s = (sk, ABatch (take k bs))) /\
    step e (ORevokeTokens [a]) (set_windows ∅ sk) = (sk', ABatch [b]) /\ cfg sk = cfg s.
Proof.
  intros H Ha Hb. destruct (C81_revoke_tokens _ _ _ _ _ H) as [_ J]. destruct (J _ _ _ Ha Hb) as (sk & sk' & Z & P & B & _).
  exists sk. eexists. split; [|split; [exact B|]].
  - destruct k; [left; split; [reflexivity|]; destruct l; [discriminate|eapply Z; eauto]|right; apply P; lia].
  - destruct k.
    + destruct l as [|x r]; [discriminate|]. apply (Z x r eq_refl eq_refl).
    + eapply step_cfg_at; [|apply P; lia]. exact I.
Qed.

(** ** C15: every accepted item of a batch was made in time *)
Theorem C15_batch_time_window e s s' bs k i c :
  bs !! k = Some (Ok i) ->
  (exists l a, step e (OApproveTokens l) s = (s', ABatch bs) /\ l !! k = Some a /\ c = ai_created (ap_info a)) \/
  (exists l a, step e (OApproveCollection l) s = (s', ABatch bs) /\ l !! k = Some a /\ c = ai_created a) \/
  (exists l a, step e (ORevokeTokens l) s = (s', ABatch bs) /\ l !! k = Some a /\ rv_created a = Some c) \/
  (exists l a, step e (ORevokeCollection l) s = (s', ABatch bs) /\ l !! k = Some a /\ rc_created a = Some c) \/
  (exists l a, step e (OTransferFrom l) s = (s', ABatch bs) /\ l !! k = Some a /\ tf_created a = Some c) ->
  c <= e_now e + default 50000000 (c_drift (cfg s)) /\
  e_now e <= c + default 10000000000 (c_tx_window (cfg s)).
Proof.
  intros Hk [(l & a & H & Ha & ->)|[(l & a & H & Ha & ->)|[(l & a & H & Ha & Hc)|[(l & a & H & Ha & Hc)|(l & a & H & Ha & Hc)]]]].
  - destruct (batch_item OApproveTokens _ _ _ _ _ _ _ _ (fun _ => I) (C81_approve_tokens _ _ _ _ _ H) Ha Hk) as (sk & sk' & _ & B & <-).
    apply (C15_approval_time_window e sk sk' i). left. eauto.
  - destruct (batch_item OApproveCollection _ _ _ _ _ _ _ _ (fun _ => I) (C81_approve_collection _ _ _ _ _ H) Ha Hk) as (sk & sk' & _ & B & <-).
    apply (C15_approval_time_window e sk sk' i). right; left. eauto.
  - destruct (revoke_item _ _ _ _ _ _ _ _ H Ha Hk) as (sk & sk' & _ & B & <-).
    apply (C15_approval_time_window e (set_windows ∅ sk) sk' i). right; right; left. eauto.
  - destruct (batch_item ORevokeCollection _ _ _ _ _ _ _ _ (fun _ => I) (C81_revoke_collection _ _ _ _ _ H) Ha Hk) as (sk & sk' & _ & B & <-).
    apply (C15_approval_time_window e sk sk' i). right; right; right; left. eauto.
  - destruct (batch_item OTransferFrom _ _ _ _ _ _ _ _ (fun _ => I) (C81_transfer_from _ _ _ _ _ H) Ha Hk) as (sk & sk' & _ & B & <-).
    apply (C15_approval_time_window e sk sk' i). right; right; right; right. eauto.
Qed.
Print Assumptions C15_batch_time_window.

(** The second of three approvals is made an hour ahead of time. *)
Example C15_batch_example :
  snd (step (from_ alice 3000000000) (OApproveTokens [appr 1 carol 3000000000 None; appr 2 bob 3600000000000 None;
    appr 2 carol 2900000000 None]) demo2) = ABatch [Ok 5; Err (ECreatedInFuture (t0 + 3000000000)); Ok 6].
Proof. vm_compute. reflexivity. Qed.

(** ** C09, C10: what a batch does to the owners *)

(** The owner of [t] after a batch: the recipient of the last accepted item about [t], or else [o]. *)
Fixpoint last_recipient {A} (tid : A -> N) (to : A -> account) (l : list A) (bs : list (res N)) (t : N)
  (o : option account) : option account :=
  match l, bs with
  | a :: l, Ok _ :: bs => last_recipient tid to l bs t (if decide (t = tid a) then Some (to a) else o)
  | _ :: l, Err _ :: bs => last_recipient tid to l bs t o
  | _, _ => o
  end.

Lemma last_recipient_snoc {A} (tid : A -> N) to l a b : forall bs t o, length bs = length l ->
  last_recipient tid to (l ++ [a]) (bs ++ [b]) t o =
  match b with
  | Ok _ => if decide (t = tid a) then Some (to a) else last_recipient tid to l bs t o
  | Err _ => last_recipient tid to l bs t o
  end.
Proof.
  induction l as [|x l IH]; intros [|[]] t o L; try discriminate L; cbn [app last_recipient].
  - destruct b; reflexivity.
  - apply IH. simpl in L. lia.
  - apply IH. simpl in L. lia.
Qed.

Lemma batch_owners {A} (call : list A -> op) (tid : A -> N) (to : A -> account) e s l bs t :
  reachable s -> (forall s, step e (call []) s = (s, ABatch [])) ->
  (forall k a b, l !! k = Some a -> bs !! k = Some b ->
    exists sk sk', step e (call (take k l)) s = (sk, ABatch (take k bs)) /\
                   step e (call [a]) sk = (sk', ABatch [b]) /\
                   step e (call (take (S k) l)) s = (sk', ABatch (take (S k) bs))) ->
  (forall s a s' b, reachable s -> step e (call [a]) s = (s', ABatch [b]) ->
     owner_of s' t = match b with Ok _ => if decide (t = tid a) then Some (to a) else owner_of s t | Err _ => owner_of s t end) ->
  forall k, (k <= length l)%nat -> (k <= length bs)%nat ->
    exists sk, step e (call (take k l)) s = (sk, ABatch (take k bs)) /\
      owner_of sk t = last_recipient tid to (take k l) (take k bs) t (owner_of s t).
Proof.
  intros R H0 I Hi. induction k as [|k IH]; intros K1 K2.
  { exists s. split; [apply H0|reflexivity]. }
  destruct (lookup_lt_is_Some_2 l k ltac:(lia)) as [a Ha]. destruct (lookup_lt_is_Some_2 bs k ltac:(lia)) as [b Hb].
  destruct (I _ _ _ Ha Hb) as (sk & sk' & A1 & A2 & A3). destruct (IH ltac:(lia) ltac:(lia)) as (sk1 & B1 & B2).
  assert (sk1 = sk) as -> by congruence. exists sk'. split; [exact A3|].
  rewrite (Hi _ _ _ _ (step_reachable _ _ _ _ _ R A1) A2), B2.
  rewrite (take_S_r _ _ _ Ha), (take_S_r _ _ _ Hb), last_recipient_snoc by (rewrite !take_length; lia). reflexivity.
Qed.

(** Answers beyond the processed items do not exist: the batch is as good as its processed part. *)
Lemma transfer_cut e l s s' bs :
  step e (OTransfer l) s = (s', ABatch bs) -> e_caller e <> anonymous ->
  (default false (c_atomic (cfg s)) = true -> nlen l <= default 100 (c_max_update (cfg s))) ->
  step e (OTransfer (take (length bs) l)) s = (s', ABatch bs) /\ (length bs <= length l)%nat.
Proof.
  intros H An At. destruct (transfer_batch_inv _ _ _ _ _ H An At) as [R U].
  pose proof (run_items_length _ _ _ _ _ R) as L. rewrite take_length in L.
  assert (P : (processed s l <= length l)%nat) by (unfold processed, nlen; lia).
  replace (length bs) with (processed s l) by lia. split; [|exact P].
  destruct l as [|x r]; [rewrite firstn_nil; exact H|]. apply transfer_batch_of_items; [exact R|exact An|apply U; discriminate|].
  unfold nlen. rewrite take_length. unfold processed, nlen. lia.
Qed.

Lemma transfer_batch_why e l s s' bs : step e (OTransfer l) s = (s', ABatch bs) ->
  (e_caller e <> anonymous /\ (default false (c_atomic (cfg s)) = true -> nlen l <= default 100 (c_max_update (cfg s)))) \/
  l = [] /\ s' = s /\ bs = [] \/
  (s' = s /\ bs = [Err (EGeneric 0 "Exceed Max allowed Update Batch Size")] /\ c_atomic (cfg s) = Some true /\
   default 100 (c_max_update (cfg s)) < nlen l) \/
  (s' = s /\ bs = [Err (EGeneric 0 "Anonymous caller not allowed to transfer")] /\ e_caller e = anonymous).
Proof.
  intros H. cbn [step] in H. unfold icrc7_transfer, ans_batch in H.
  destruct l as [|a l]; [injection H as <- <-; auto|].
  destruct (usize_try _) as [mx|] eqn:U; [|discriminate].
  unfold usize_try in U. destruct (_ <? two32) in U; [|discriminate]. injection U as <-.
  destruct (_ && _) eqn:At.
  { injection H as <- <-. apply andb_true_iff in At. destruct At as [A1 A2]. apply N.ltb_lt in A2. right; right; left.
    splits; auto. destruct (c_atomic (cfg s)) as [[]|]; try discriminate; reflexivity. }
  destruct (bool_decide _) eqn:B; [injection H as <- <-; apply bool_decide_eq_true in B; auto 6|].
  apply bool_decide_eq_false in B. left. split; [exact B|]. intros Ha. rewrite Ha in At. simpl in At. apply N.ltb_ge in At. exact At.
Qed.

(** Full statement: without the hypothesis on the log. It is refuted by [C09_transfer_exact_refuted]. *)
Theorem C09_batch_partial e l s s' bs t :
  reachable s -> step e (OTransfer l) s = (s', ABatch bs) -> (forall k b i, e_log e k b <> LDup i) ->
  owner_of s' t = last_recipient ta_tid ta_to l bs t (owner_of s t).
Proof.
  intros R H ND.
  destruct (transfer_batch_why _ _ _ _ _ H) as [[An At]|[(-> & -> & ->)|[(-> & -> & _)|(-> & -> & _)]]].
  - destruct (C17_batch_positional _ _ _ _ _ H An At) as [_ P]. destruct (transfer_cut _ _ _ _ _ H An At) as [Hc Lc].
    destruct (batch_owners OTransfer ta_tid ta_to e s l bs t R ltac:(reflexivity) P) with (k := length bs) as (sk & A & B); auto.
    + clear -ND. intros s a s' [i|er] R H.
      * destruct (C09_transfer_exact_partial _ _ _ _ _ R H) as (ow & _ & _ & X & _); auto.
      * apply transfer_err_effect in H. unfold owner_of. destruct H as (_ & _ & -> & _). reflexivity.
    + rewrite Hc in A. injection A as <- Eb. rewrite <- Eb in B. rewrite B. clear -Lc. revert bs Lc. generalize (owner_of s t).
      induction l as [|a l IH]; intros o [|b bs] L; cbn [length take last_recipient] in *; try reflexivity.
      destruct b; apply IH; lia.
  - reflexivity.
  - destruct l as [|? []]; reflexivity.
  - destruct l as [|? []]; reflexivity.
Qed.
Print Assumptions C09_batch_partial.

(** [icrc37_transfer_from] reports every duplicate, so nothing is assumed of the log. *)
Theorem C10_batch e l s s' bs t :
  reachable s -> step e (OTransferFrom l) s = (s', ABatch bs) ->
  owner_of s' t = last_recipient tf_tid tf_to l bs t (owner_of s t).
Proof.
  intros R H. destruct (C81_transfer_from _ _ _ _ _ H) as [L P].
  destruct (batch_owners OTransferFrom tf_tid tf_to e s l bs t R ltac:(reflexivity) P) with (k := length l) as (sk & A & B); auto; [|lia|].
  - clear. intros s a s' [i|er] R H.
    + destruct (C10_transfer_from_exact _ _ _ _ _ R H) as (ow & _ & _ & X & _); auto.
    + apply transfer_from_err_effect in H. unfold owner_of. destruct H as (-> & _). reflexivity.
  - rewrite firstn_all, H in A. injection A as <- Eb. rewrite <- Eb, firstn_all in B. exact B.
Qed.
Print Assumptions C10_batch.

(** Token 1 goes to bob and back in one batch of transfers from; of the transfers of alice the third comes too late. *)
Example C09_batch_example :
  let x := step (from_ alice 3000000000) (OTransfer [xfer bob 1; xfer carol 2; xfer carol 1]) demo2 in
  snd x = ABatch [Ok 5; Ok 6; Err EInvalidRecipient] /\
  owner_of (fst x) 1 = Some (acct bob) /\ owner_of (fst x) 2 = Some (acct carol) /\ owner_of (fst x) 3 = Some (acct bob) /\
  last_recipient ta_tid ta_to [xfer bob 1; xfer carol 2; xfer carol 1] [Ok 5; Ok 6; Err EInvalidRecipient] 1 (Some (acct alice))
    = Some (acct bob).
Proof. vm_compute. auto. Qed.

Example C10_batch_example :
  let x := step (from_ bob 3000000000) (OTransferFrom [tfrom alice bob 1; tfrom bob carol 1; tfrom alice bob 2]) demo2 in
  snd x = ABatch [Ok 5; Ok 6; Err EUnauthorized] /\ owner_of (fst x) 1 = Some (acct carol) /\ owner_of (fst x) 2 = Some (acct alice).
Proof. vm_compute. auto. Qed.

(** ** C92: the reason told for an item of a batch is true in the state the items before it left *)

Lemma clock_fits_cfg e s s' : cfg s' = cfg s -> clock_fits e s -> clock_fits e s'.
Proof. intros E. unfold clock_fits, drift_of, tx_window_of. rewrite E. auto. Qed.

Definition reasons_in_batch {A} (call : list A -> op) (reason : env -> state -> A -> err -> Prop) : Prop :=
  forall e s l s' bs k a er,
    clock_fits e s -> step e (call l) s = (s', ABatch bs) -> l !! k = Some a -> bs !! k = Some (Err er) ->
    exists sk, step e (call (take k l)) s = (sk, ABatch (take k bs)) /\ reason e sk a er.

Lemma batch_reasons {A} (call : list A -> op) (reason : env -> state -> A -> err -> Prop) (n : state -> list A -> nat) :
  (forall x, token_call (call x)) ->
  (forall e s l s' bs, step e (call l) s = (s', ABatch bs) -> item_by_item call e s l (n s l) bs) ->
  (forall e s a s' er, clock_fits e s -> step e (call [a]) s = (s', ABatch [Err er]) -> reason e s a er) ->
  reasons_in_batch call reason.
Proof.
  intros T I P e s l s' bs k a er F H Ha Hk.
  destruct (batch_item call _ _ _ _ _ _ _ _ T (I _ _ _ _ _ H) Ha Hk) as (sk & sk' & A1 & B & C). exists sk. split; [exact A1|].
  eapply P; [|exact B]. eapply clock_fits_cfg; eauto.
Qed.

Theorem C92_batch_reasons :
  reasons_in_batch OApproveTokens approve_reason /\
  reasons_in_batch OApproveCollection approve_coll_reason /\
  reasons_in_batch ORevokeCollection revoke_coll_reason /\
  reasons_in_batch OTransferFrom transfer_from_reason.
Proof.
  splits.
  - apply (batch_reasons _ _ (fun _ l => length l)); [exact (fun _ => I)|apply C81_approve_tokens|apply C92_approve_reasons].
  - apply (batch_reasons _ _ (fun _ l => length l)); [exact (fun _ => I)|apply C81_approve_collection|apply C92_approve_collection_reasons].
  - eapply (batch_reasons _ _ _); [exact (fun _ => I)|apply C81_revoke_collection|apply C92_revoke_collection_reasons].
  - apply (batch_reasons _ _ (fun _ l => length l)); [exact (fun _ => I)|apply C81_transfer_from|apply C92_transfer_from_reasons].
Qed.
Print Assumptions C92_batch_reasons.

(** For token revocations the state before the first item is that of the call up to the limiter. *)
Theorem C92_batch_revoke_reasons e s l s' bs k a er :
  clock_fits e s -> step e (ORevokeTokens l) s = (s', ABatch bs) -> l !! k = Some a -> bs !! k = Some (Err er) ->
  exists sk, ((k = 0%nat /\ ledger_same s sk) \/ step e (ORevokeTokens (take k l)) s = (sk, ABatch (take k bs))) /\
    revoke_reason e sk a er.
Proof.
  intros F H Ha Hk. destruct (revoke_item _ _ _ _ _ _ _ _ H Ha Hk) as (sk & sk' & A & B & C). exists sk. split; [exact A|].
  apply (C92_revoke_reasons e (set_windows ∅ sk) a sk' er); [|exact B]. eapply clock_fits_cfg; [|exact F]. exact C.
Qed.
Print Assumptions C92_batch_revoke_reasons.

(** The wrong reason of [C92_transfer_reasons_refuted] remains. *)
Theorem C92_batch_transfer_reasons_partial e s l s' bs k a er :
  clock_fits e s -> step e (OTransfer l) s = (s', ABatch bs) -> l !! k = Some a -> bs !! k = Some (Err er) ->
  er <> EUnauthorized /\
  (exists sk, step e (OTransfer (take k l)) s = (sk, ABatch (take k bs)) /\
     (transfer_reason e sk a er \/
      (er = EInvalidRecipient /\ exists ow, owner_of sk (ta_tid a) = Some ow /\ acc_owner ow <> e_caller e))) \/
  (k = 0%nat /\ er = EGeneric 0 "Exceed Max allowed Update Batch Size" /\ c_atomic (cfg s) = Some true /\
   default 100 (c_max_update (cfg s)) < nlen l) \/
  (k = 0%nat /\ er = EGeneric 0 "Anonymous caller not allowed to transfer" /\ e_caller e = anonymous).
Proof.
  intros F H Ha Hk.
  destruct (transfer_batch_why _ _ _ _ _ H) as [[An At]|[(-> & _)|[(-> & E & At & Sz)|(-> & E & An)]]].
  - left. destruct (C17_batch_positional _ _ _ _ _ H An At) as [_ P]. destruct (P _ _ _ Ha Hk) as (sk & sk' & A & B & _).
    destruct (C92_transfer_reasons_partial e sk a sk' er) as [X Y]; [|exact B|]; [|split; eauto].
    eapply clock_fits_cfg; [|exact F]. eapply step_cfg_at; [|exact A]. exact I.
  - rewrite lookup_nil in Ha. discriminate.
  - right; left. rewrite E in Hk. destruct k; [|destruct k; discriminate]. injection Hk as <-. auto.
  - right; right. rewrite E in Hk. destruct k; [|destruct k; discriminate]. injection Hk as <-. auto.
Qed.
Print Assumptions C92_batch_transfer_reasons_partial.
