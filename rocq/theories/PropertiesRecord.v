(** Strangers, the order of the log, and what each answer leaves in it: C89, C90, C91. *)
From Verif Require Import Base ModelPrincipal ModelState ModelIcrc7 ModelIcrc37 ModelManagement ModelLifecycle
  ModelQueries ModelStep ProofsItems ProofsManage ProofsMicro Spec ProofsCore ProofsOwner ProofsLog ProofsApprovals
  ProofsLock Scenario.

(** ** C89: somebody without tokens, permissions and approvals changes nothing *)

(** [p] holds no permission, owns no token, is approved for nothing and has never approved anybody for its collection. *)
Record stranger (s : state) (p : principal) : Prop := {
  st_perm : forall q, ~ holds s p q;
  st_token : forall t o, owners s !! t = Some o -> acc_owner o <> p;
  st_spender : forall t sp, acc_owner sp = p -> token_approval s t sp = None;
  st_spender_coll : forall ow sp, acc_owner sp = p -> collection_approval s ow sp = None;
  st_giver : col_appr s !! akey (mkAcc p None) = None
}.

(** Messages that users send (replies and upgrades come from the platform and the controllers). *)
Definition user_call (o : op) : Prop := match o with OReply _ _ | OUpgrade => False | _ => True end.

Lemma drop_expired_absent {K} `{Countable K} (now : N) (k : K) (sp : acckey) (M : gmap K appmap) :
  (forall m, M !! k = Some m -> m !! sp = None) -> drop_expired now k sp M = M.
Proof.
  intros Ab. unfold drop_expired. destruct (M !! k) as [m|] eqn:E; [|reflexivity]. rewrite (Ab m eq_refl). reflexivity.
Qed.

Lemma stranger_quiet s s' p : quiet s s' -> stranger s p -> stranger s' p.
Proof. intros (w & n & ->) [A B C D E]. constructor; assumption. Qed.

Lemma owners_token s t tok : tokens s !! t = Some tok -> owners s !! t = Some (t_owner tok).
Proof. intros T. unfold owners. rewrite lookup_fmap, T. reflexivity. Qed.

Lemma stranger_micro e o s s' :
  user_call o -> stranger s (e_caller e) -> micro e o s s' -> quiet s s'.
Proof.
  intros U [P T S SC G] M.
  assert (noperm : forall q, has_permission s (e_caller e) q = true -> False) by (intros q X; apply holds_iff in X; eapply P; eauto).
  assert (Ts : forall sub t m, tok_appr s !! t = Some m -> m !! akey (mkAcc (e_caller e) sub) = None).
  { intros sub t m E. specialize (S t (mkAcc (e_caller e) sub) eq_refl). unfold token_approval in S. rewrite E in S.
    destruct (m !! _); [discriminate|reflexivity]. }
  assert (Cs : forall sub ow m, col_appr s !! akey ow = Some m -> m !! akey (mkAcc (e_caller e) sub) = None).
  { intros sub ow m E. specialize (SC ow (mkAcc (e_caller e) sub) eq_refl). unfold collection_approval in SC. rewrite E in SC.
    destruct (m !! _); [discriminate|reflexivity]. }
  destruct M; try (exfalso; eapply noperm; eassumption); try assumption; try (destruct U; fail).
  - destruct (T _ _ (owners_token _ _ _ H1) H2).
  - unfold owner_of in H1. destruct (tokens s !! ap_tid a) as [tok|] eqn:E; [|discriminate]. injection H1 as <-.
    destruct (T _ _ (owners_token _ _ _ E)). apply (f_equal fst) in H2. exact H2.
  - exfalso. unfold has_nfts in H2. apply existsb_exists in H2. destruct H2 as ([t tok] & Hin & Hb).
    apply bool_decide_eq_true in Hb. apply elem_of_list_In, elem_of_map_to_list in Hin. simpl in Hb.
    destruct (T _ _ (owners_token _ _ _ Hin) Hb).
  - unfold owner_of in H1. destruct (tokens s !! rv_tid a) as [tok|] eqn:E; [|discriminate]. injection H1 as <-.
    destruct (T _ _ (owners_token _ _ _ E)). apply (f_equal fst) in H2. exact H2.
  - congruence.
  - unfold drop_both. destruct H0 as (w & n & ->).
    rewrite !drop_expired_absent; [exists w, n; destruct s; reflexivity|..].
    + intros m E. exact (Ts _ _ _ E).
    + intros m E. exact (Cs _ _ _ E).
  - exfalso. destruct H5 as [E|[E|E]].
    + rewrite <- H4 in E. destruct (T _ _ (owners_token _ _ _ H1)). apply (f_equal fst) in E. symmetry. exact E.
    + unfold has_valid in E. destruct (tok_appr s !! tf_tid a) as [m|] eqn:X; [|discriminate].
      rewrite (Ts _ _ _ X) in E. discriminate.
    + unfold has_valid in E. destruct (col_appr s !! akey (t_owner nft)) as [m|] eqn:X; [|discriminate].
      rewrite (Cs _ _ _ X) in E. discriminate.
  - exfalso. destruct (T _ _ (owners_token _ _ _ H0) H1).
Qed.

(** Nothing but the memory of the rate limiter (and the ghost number of calls to the log) changes. *)
Theorem C89_strangers_change_nothing e o s s' a :
  stranger s (e_caller e) -> user_call o -> step e o s = (s', a) ->
  exists w n, s' = set_windows w (set_lcalls n s).
Proof.
  intros S U H. pose proof (step_rel (fun x => stranger x (e_caller e)) quiet e o s) as R. rewrite H in R. cbn [fst] in R.
  apply R; [apply quiet_refl|apply quiet_trans| |exact S].
  intros s1 s2 S1 M. pose proof (stranger_micro _ _ _ _ U S1 M) as Q. split; [eapply stranger_quiet; eauto|exact Q].
Qed.

(** However many messages strangers send. *)
Theorem C89_strangers_history s h :
  Forall (fun x => stranger s (e_caller (fst x)) /\ user_call (snd x)) h ->
  exists w n, run h s = set_windows w (set_lcalls n s).
Proof.
  intros F. change (quiet s (run h s)).
  assert (G : forall s1, quiet s s1 -> quiet s (run h s1)); [|apply G, quiet_refl].
  induction F as [|[e o] h [S U] F IH]; intros s1 Q; [exact Q|]. cbn [run]. apply IH.
  eapply quiet_trans; [exact Q|]. destruct (step e o s1) as [s2 a] eqn:E.
  eapply C89_strangers_change_nothing; [|exact U|exact E]. eapply stranger_quiet; eauto.
Qed.

(** A principal nobody ever mentioned, in the demonstration collection with its tokens and approvals. *)
Lemma nobody_stranger : stranger demo2 [77].
Proof.
  assert (HP : perms demo2 = {[admin := all_permissions]}) by (vm_compute; reflexivity).
  assert (HO : forall t o, owners demo2 !! t = Some o -> o = acct alice \/ o = acct bob).
  { intros t o H. apply elem_of_map_to_list in H.
    assert (L : Forall (fun x => snd x = acct alice \/ snd x = acct bob) (map_to_list (owners demo2))).
    { vm_compute. repeat (apply Forall_cons_2; [auto|]); apply Forall_nil_2. }
    rewrite Forall_forall in L. exact (L _ H). }
  assert (HT : Forall (fun x => map fst (map_to_list (snd x)) = [akey (acct bob)]) (map_to_list (tok_appr demo2))).
  { vm_compute. repeat constructor. }
  assert (HC : Forall (fun x => map fst (map_to_list (snd x)) = [akey (acct carol)]) (map_to_list (col_appr demo2))).
  { vm_compute. repeat constructor. }
  pose proof (proj1 (Forall_forall _ _) HT) as HT'. pose proof (proj1 (Forall_forall _ _) HC) as HC'.
  constructor.
  - intros q (l & E & _). rewrite HP in E. discriminate.
  - intros t o H. destruct (HO _ _ H) as [->| ->]; discriminate.
  - intros t sp Hs. unfold token_approval. destruct (tok_appr demo2 !! t) as [m|] eqn:E; [|reflexivity].
    apply elem_of_map_to_list in E. specialize (HT' _ E). simpl in HT'.
    destruct (m !! akey sp) as [x|] eqn:X; [|reflexivity]. exfalso.
    apply elem_of_map_to_list in X. apply (elem_of_list_fmap_1 fst) in X. unfold fmap in X. 
    change (list_fmap _ _ fst (map_to_list m)) with (map fst (map_to_list m)) in X.
    rewrite HT' in X. apply elem_of_list_singleton in X. apply (f_equal fst) in X. simpl in X. rewrite Hs in X. discriminate.
  - intros ow sp Hs. unfold collection_approval. destruct (col_appr demo2 !! akey ow) as [m|] eqn:E; [|reflexivity].
    apply elem_of_map_to_list in E. specialize (HC' _ E). simpl in HC'.
    destruct (m !! akey sp) as [x|] eqn:X; [|reflexivity]. exfalso.
    apply elem_of_map_to_list in X. apply (elem_of_list_fmap_1 fst) in X. unfold fmap in X.
    change (list_fmap _ _ fst (map_to_list m)) with (map fst (map_to_list m)) in X.
    rewrite HC' in X. apply elem_of_list_singleton in X. apply (f_equal fst) in X. simpl in X. rewrite Hs in X. discriminate.
  - vm_compute. reflexivity.
Qed.

Lemma quiet_owners w n s : owners (set_windows w (set_lcalls n s)) = owners s.
Proof. reflexivity. Qed.

(** Their transfer of alice's token is a call the theorem speaks about. *)
Example C89_case :
  (exists e o, stranger demo2 (e_caller e) /\ user_call o /\ o = OTransferFrom [tfrom alice bob 1]) /\
  (forall o, user_call o -> owners (fst (step (from_ [77] 3000000000) o demo2)) = owners demo2).
Proof.
  split; [exists (from_ [77] 3000000000); eexists; split; [exact nobody_stranger|split; [|reflexivity]]; exact I|].
  intros o U. destruct (step (from_ [77] 3000000000) o demo2) as [s' a] eqn:E.
  destruct (C89_strangers_change_nothing (from_ [77] 3000000000) o demo2 s' a nobody_stranger U E) as (w & n & ->).
  exact (quiet_owners w n demo2).
Qed.

(** The last condition of [stranger] is needed: alice, having given everything away and revoked all approvals, may still
    revoke again; that is answered with success and logged. *)
Example C89_former_giver :
  let h := demo2_h ++ [(from_ alice 3000000000, OTransfer [xfer bob 1; xfer bob 2]);
                       (from_ alice 4000000000, ORevokeCollection [mkRevokeCollArg None None None None])] in
  let s := run h demo0 in
  map snd (map_to_list (owners s)) = [acct bob; acct bob; acct bob] /\
  collection_approval s (acct alice) (acct carol) = None /\
  snd (step (from_ alice 5000000000) (ORevokeCollection [mkRevokeCollArg None None None None]) s) = ABatch [Ok 8].
Proof. vm_compute. auto. Qed.

(** ** C90: the log only grows, in the order of time *)

(** The blocks added by one message bear its time. *)
Lemma log_micro e o s s' : micro e o s s' ->
  exists l, log s' = log s ++ l /\ Forall (fun b => tx_time b = e_now e) (map snd l).
Proof.
  assert (none : forall x, log x = log s -> exists l, log x = log s ++ l /\ Forall (fun b => tx_time b = e_now e) (map snd l)).
  { intros x E. exists []. rewrite app_nil_r. split; [exact E|constructor]. }
  intros M. destruct M; open_quiet; try (apply none; reflexivity);
    try (eexists; split; [reflexivity|]; repeat constructor).
  - apply Forall_forall. intros b Hb.
    assert (X : forall k r (idxs : list N), b ∈ map snd (zip idxs (mint_txs (e_now e) k r)) -> tx_time b = e_now e).
    { clear. intros k r. revert k. induction r as [|x r IH]; intros k [|i idxs] H; simpl in H; try (inversion H; fail).
      apply elem_of_cons in H. destruct H as [->|H]; [reflexivity|eauto]. }
    eapply X; eauto.
  - apply Forall_forall. intros b Hb.
    assert (X : forall k r (idxs : list N), b ∈ map snd (zip idxs (mint_txs (e_now e) k r)) -> tx_time b = e_now e).
    { clear. intros k r. revert k. induction r as [|x r IH]; intros k [|i idxs] H; simpl in H; try (inversion H; fail).
      apply elem_of_cons in H. destruct H as [->|H]; [reflexivity|eauto]. }
    eapply X; eauto.
  - apply none. destruct p, r; reflexivity.
Qed.

Theorem C90_log_append_only e o s s' a :
  step e o s = (s', a) -> exists l, log s' = log s ++ l /\ Forall (fun b => tx_time b = e_now e) (map snd l).
Proof.
  intros H.
  pose proof (step_rel (fun _ => True)
    (fun x y => exists l, log y = log x ++ l /\ Forall (fun b => tx_time b = e_now e) (map snd l)) e o s) as R.
  rewrite H in R. cbn [fst] in R. apply R; [| | |exact I].
  - intros x. exists []. rewrite app_nil_r. split; [reflexivity|constructor].
  - intros x y z (l1 & E1 & F1) (l2 & E2 & F2). exists (l1 ++ l2). rewrite E2, E1, <- app_assoc. split; [reflexivity|].
    rewrite map_app. apply Forall_app. auto.
  - intros x y _ M. split; [exact I|]. eapply log_micro; eauto.
Qed.

Lemma ss_app (l l' : list N) : StronglySorted N.le l -> StronglySorted N.le l' ->
  (forall a b, a ∈ l -> b ∈ l' -> a <= b) -> StronglySorted N.le (l ++ l').
Proof.
  intros H H' Hl. induction H as [|a l H IH F]; [exact H'|]. simpl. constructor.
  - apply IH. intros x y Hx Hy. apply Hl; [right; exact Hx|exact Hy].
  - apply Forall_app. split; [exact F|]. apply Forall_forall. intros b Hb. apply Hl; [left|exact Hb].
Qed.

Lemma ss_const t (l : list tx) : Forall (fun b => tx_time b = t) l -> StronglySorted N.le (map tx_time l).
Proof.
  induction 1 as [|b l Hb F IH]; simpl; constructor; [exact IH|]. apply Forall_map. eapply Forall_impl; [exact F|].
  simpl. intros. lia.
Qed.

Lemma chronological_run h s :
  times_ok h -> StronglySorted N.le (map tx_time (blocks s)) ->
  (forall b x, b ∈ blocks s -> x ∈ h -> tx_time b <= e_now (fst x)) ->
  StronglySorted N.le (map tx_time (blocks (run h s))).
Proof.
  revert s. induction h as [|[e o] h IH]; intros s Th Ss Hb; [exact Ss|]. cbn [run].
  inversion Th as [|? ? Th' Fh]; subst. destruct (step e o s) as [s' a] eqn:E. cbn [fst].
  destruct (C90_log_append_only _ _ _ _ _ E) as (l & El & Fl).
  assert (Eb : blocks s' = blocks s ++ map snd l) by (unfold blocks; rewrite El, map_app; reflexivity).
  apply IH; [exact Th'| |].
  - rewrite Eb, map_app. apply ss_app; [exact Ss|eapply ss_const; eauto|].
    intros x y Hx Hy. apply elem_of_list_In, in_map_iff in Hx. destruct Hx as (b & <- & Hx).
    apply elem_of_list_In, in_map_iff in Hy. destruct Hy as (b' & <- & Hy). apply elem_of_list_In in Hx, Hy.
    rewrite Forall_forall in Fl. rewrite (Fl _ Hy). apply (Hb b (e, o) Hx). left.
  - intros b x Hx Hin. rewrite Eb in Hx. apply elem_of_app in Hx. destruct Hx as [Hx|Hx].
    + apply Hb; [exact Hx|right; exact Hin].
    + rewrite Forall_forall in Fl. rewrite (Fl _ Hx). rewrite Forall_forall in Fh. apply Fh.
      apply elem_of_list_In, in_map_iff. exists x. split; [reflexivity|apply elem_of_list_In; exact Hin].
Qed.

Theorem C90_log_chronological caller url_ok a s0 h :
  init caller url_ok a = Some s0 -> times_ok h -> StronglySorted N.le (map tx_time (blocks (run h s0))).
Proof.
  intros I0 Th. apply init_inv in I0. destruct I0 as (_ & _ & _ & _ & ->).
  apply chronological_run; [exact Th|constructor|]. intros b x Hb. inversion Hb.
Qed.

Example C90_case :
  times_ok demo2_h /\ map tx_time (blocks (run demo2_h demo0)) = [t0; t0; t0; t0 + 1000000000; t0 + 2000000000].
Proof. split; [repeat constructor; vm_compute; discriminate|vm_compute; reflexivity]. Qed.

(** ** C91: each success is in the log once, under the number answered, and nothing else is *)

(** The items answered with success, with the numbers answered. *)
Definition successes {A} (l : list A) (rs : list (res N)) : list (A * N) :=
  omap (fun x => match snd x with Ok i => Some (fst x, i) | Err _ => None end) (zip l rs).

(** The log grew by one block per success, in order, under the number answered, each describing its item. *)
Definition recorded {A} (describes : A -> tx -> Prop) (l : list A) (rs : list (res N)) (s s' : state) : Prop :=
  exists bs, log s' = log s ++ bs /\
    Forall2 (fun x y => fst y = snd x /\ describes (fst x) (snd y)) (successes l rs) bs.

Lemma run_items_recorded {A} (f : state -> A -> option (state * res N)) (describes : A -> tx -> Prop) l :
  (forall s a s' r, f s a = Some (s', r) ->
     match r with
     | Ok i => exists b, log s' = log s ++ [(i, b)] /\ describes a b
     | Err _ => log s' = log s
     end) ->
  forall s s' rs, run_items f s l = Some (s', rs) -> recorded describes l rs s s'.
Proof.
  intros Hf. induction l as [|a l IH]; intros s s' rs H; simpl in H.
  - injection H as <- <-. exists []. rewrite app_nil_r. split; [reflexivity|constructor].
  - destruct (f s a) as [[s1 r]|] eqn:F; [|discriminate].
    destruct (run_items f s1 l) as [[s2 rs']|] eqn:G; [|discriminate]. injection H as <- <-.
    destruct (IH _ _ _ G) as (bs & E & F2). specialize (Hf _ _ _ _ F). unfold successes. cbn [zip zip_with omap list_omap fst snd].
    destruct r as [i|er].
    + destruct Hf as (b & E1 & D). exists ((i, b) :: bs). rewrite E, E1, <- app_assoc. split; [reflexivity|].
      constructor; [split; [reflexivity|exact D]|exact F2].
    + exists bs. rewrite E, Hf. split; [reflexivity|exact F2].
Qed.

Lemma successes_take {A} (l : list A) n rs : length rs = length (take_n n l) -> successes l rs = successes (take_n n l) rs.
Proof.
  unfold take_n. intros H. unfold successes. f_equal.
  revert rs H. generalize (N.to_nat (N.min n (nlen l))). intros k. revert k.
  induction l as [|a l IH]; intros [|k] [|r rs] H; simpl in *; try reflexivity; try discriminate. f_equal. auto.
Qed.

Lemma recorded_take {A} (d : A -> tx -> Prop) l n rs s s' :
  length rs = length (take_n n l) -> recorded d (take_n n l) rs s s' -> recorded d l rs s s'.
Proof. unfold recorded. intros H. rewrite (successes_take _ _ _ H). auto. Qed.

Lemma items_length {A B} (f : state -> A -> option (state * B)) l : forall s s' bs,
  run_items f s l = Some (s', bs) -> length bs = length l.
Proof.
  induction l as [|a l IH]; intros s s' bs H; simpl in H; [injection H as <- <-; reflexivity|].
  destruct (f s a) as [[s1 b]|]; [|discriminate]. destruct (run_items f s1 l) as [[s2 bs']|] eqn:G; [|discriminate].
  injection H as <- <-. simpl. f_equal. eauto.
Qed.

Theorem C91_approvals_recorded e s l s' rs :
  step e (OApproveTokens l) s = (s', ABatch rs) ->
  recorded (fun a b => b = mkTx "37approve" (e_now e) (Some (ap_tid a)) (Some (mkAcc (e_caller e) (ai_from_sub (ap_info a))))
                            None (Some (ai_spender (ap_info a))) (ai_expires (ap_info a)) None (ai_memo (ap_info a))
                            (Some (ai_created (ap_info a)))) l rs s s'.
Proof.
  simpl. unfold icrc37_approve_tokens, ans_batch. destruct (run_items _ _ _) as [[s1 r1]|] eqn:R; [|discriminate].
  intros [= <- <-]. revert R. apply run_items_recorded. clear. intros s a s' r H.
  destruct (approve_token_inv _ _ _ _ _ H) as [[Q (er & ->)]|(s1 & i & ow & -> & Q & _ & _ & _ & _ & _ & ->)].
  - apply (quiet_log _ _ Q).
  - eexists. split; [reflexivity|]. reflexivity.
Qed.

Theorem C91_collection_approvals_recorded e s l s' rs :
  step e (OApproveCollection l) s = (s', ABatch rs) ->
  recorded (fun a b => b = mkTx "37approve_coll" (e_now e) None (Some (mkAcc (e_caller e) (ai_from_sub a)))
                            None (Some (ai_spender a)) (ai_expires a) None (ai_memo a) (Some (ai_created a))) l rs s s'.
Proof.
  simpl. unfold icrc37_approve_collection, ans_batch. destruct (run_items _ _ _) as [[s1 r1]|] eqn:R; [|discriminate].
  intros [= <- <-]. revert R. apply run_items_recorded. clear. intros s a s' r H.
  destruct (approve_collection_inv _ _ _ _ _ H) as [[Q (er & ->)]|(s1 & i & -> & Q & _ & _ & _ & _ & ->)].
  - apply (quiet_log _ _ Q).
  - eexists. split; [reflexivity|]. reflexivity.
Qed.

Theorem C91_revocations_recorded e s l s' rs :
  step e (ORevokeTokens l) s = (s', ABatch rs) ->
  recorded (fun a b => b = mkTx "37revoke" (e_now e) (Some (rv_tid a)) (Some (mkAcc (e_caller e) (rv_from_sub a)))
                            None (rv_spender a) None None (rv_memo a) (rv_created a)) l rs s s'.
Proof.
  simpl. unfold icrc37_revoke_token_approvals. destruct l as [|a0 l]; [discriminate|].
  destruct (guard_sliding_window _ _ _) as [s1 pass] eqn:G. pose proof (guard_quiet _ _ _ _ _ G) as Q0.
  destruct pass; cbn [negb]; [|discriminate].
  destruct (run_items _ _ _) as [[s2 r1]|] eqn:R; [|discriminate]. intros [= <- <-].
  apply (recorded_take _ _ _ _ _ _ (items_length _ _ _ _ _ R)).
  assert (X : forall x, recorded x (take_n (usize_limit (c_max_revoke (cfg s1))) (a0 :: l)) r1 s1 s2 ->
                        recorded x (take_n (usize_limit (c_max_revoke (cfg s1))) (a0 :: l)) r1 s s2).
  { intros x. unfold recorded. rewrite (quiet_log _ _ Q0). auto. }
  apply X. revert R. apply run_items_recorded. clear. intros s a s' r H.
  destruct (revoke_token_inv _ _ _ _ _ H) as [[Q (er & ->)]|(s3 & i & ow & m & -> & Q & _ & _ & _ & _ & ->)].
  - apply (quiet_log _ _ Q).
  - eexists. split; [reflexivity|]. reflexivity.
Qed.

Theorem C91_collection_revocations_recorded e s l s' rs :
  step e (ORevokeCollection l) s = (s', ABatch rs) ->
  recorded (fun a b => b = mkTx "37revoke_coll" (e_now e) None (Some (mkAcc (e_caller e) None))
                            None (rc_spender a) None None (rc_memo a) (rc_created a)) l rs s s'.
Proof.
  simpl. unfold icrc37_revoke_collection_approvals, ans_batch.
  destruct (run_items _ _ _) as [[s2 r1]|] eqn:R; [|discriminate]. intros [= <- <-].
  apply (recorded_take _ _ _ _ _ _ (items_length _ _ _ _ _ R)).
  revert R. apply run_items_recorded. clear. intros s a s' r H.
  destruct (revoke_collection_inv _ _ _ _ _ H) as [[Q (er & ->)]|(s3 & i & m & -> & Q & _ & _ & ->)].
  - apply (quiet_log _ _ Q).
  - eexists. split; [reflexivity|]. reflexivity.
Qed.

Theorem C91_transfers_from_recorded e s l s' rs :
  step e (OTransferFrom l) s = (s', ABatch rs) ->
  recorded (fun a b => b = mkTx "37xfer" (e_now e) (Some (tf_tid a)) (Some (tf_from a)) (Some (tf_to a))
                            (Some (mkAcc (e_caller e) (tf_spender_sub a))) None None (tf_memo a) (tf_created a)) l rs s s'.
Proof.
  simpl. unfold icrc37_transfer_from, ans_batch. destruct (run_items _ _ _) as [[s2 r1]|] eqn:R; [|discriminate].
  intros [= <- <-]. revert R. apply run_items_recorded. clear. intros s a s' r H.
  destruct (transfer_from_inv _ _ _ _ _ H) as
      [[Q (er & ->)]|[(nft & s3 & er & -> & Q & T & ->)|(nft & s3 & i & -> & Q & T & _ & H1 & H2 & H3 & H4 & ->)]].
  - apply (quiet_log _ _ Q).
  - apply (quiet_log _ _ Q).
  - eexists. split; [reflexivity|]. reflexivity.
Qed.

(** What a transfer block says of its item: the sender is an account of the caller. *)
Definition transfer_block (e : env) (a : transfer_arg) (b : tx) : Prop :=
  exists from, acc_owner from = e_caller e /\
    b = mkTx "7xfer" (e_now e) (Some (ta_tid a)) (Some from) (Some (ta_to a)) None None None (ta_memo a)
             (Some (match ta_created a with Some t => t | None => e_now e end)).

(** Full statement: every batch of transfers is recorded.  It fails where the log calls a transfer a duplicate: the
    item is answered with the number of an older block, as if it had succeeded. *)
Definition C91_statement : Prop :=
  forall e s l s' rs, reachable s -> step e (OTransfer l) s = (s', ABatch rs) -> recorded (transfer_block e) l rs s s'.

Theorem C91_transfers_recorded_refuted : ~ C91_statement.
Proof.
  intros H.
  set (e := with_log (fun _ _ => LDup 0) (from_ alice 1000000000)).
  specialize (H e demo1 [xfer bob 1] (fst (step e (OTransfer [xfer bob 1]) demo1)) [Ok 0] (demo_reachable demo1_h)).
  assert (E : step e (OTransfer [xfer bob 1]) demo1 = (fst (step e (OTransfer [xfer bob 1]) demo1), ABatch [Ok 0])).
  { apply snd_pair. vm_compute. reflexivity. }
  destruct (H E) as (bs & L & F). inversion F as [|? y ? bs' [_ _] F']; subst.
  assert (X : length (log (fst (step e (OTransfer [xfer bob 1]) demo1))) = length (log demo1)) by (vm_compute; reflexivity).
  rewrite L, app_length in X. simpl in X. lia.
Qed.

Theorem C91_transfers_recorded_partial e s l s' rs :
  (forall k b n, e_log e k b <> LDup n) ->
  step e (OTransfer l) s = (s', ABatch rs) -> recorded (transfer_block e) l rs s s'.
Proof.
  intros ND. simpl. unfold icrc7_transfer, ans_batch. destruct l as [|a0 l].
  { intros [= <- <-]. exists []. rewrite app_nil_r. split; [reflexivity|constructor]. }
  destruct (usize_try _) as [mx|]; [|discriminate].
  assert (one : forall er, recorded (transfer_block e) (a0 :: l) [Err er] s s).
  { intros er. exists []. rewrite app_nil_r. split; [reflexivity|].
    unfold successes. cbn [zip zip_with omap list_omap fst snd]. destruct l; constructor. }
  destruct (_ && _); [intros [= <- <-]; apply one|].
  destruct (bool_decide _); [intros [= <- <-]; apply one|].
  destruct (run_items _ _ _) as [[s2 r1]|] eqn:R; [|discriminate]. intros [= <- <-].
  apply (recorded_take _ _ _ _ _ _ (items_length _ _ _ _ _ R)).
  revert R. apply run_items_recorded. clear - ND. intros s a s' r H.
  destruct (transfer_nft_inv _ _ _ _ _ H) as
      [[Q (er & ->)]|[(nft & n & -> & Q & _ & k & D)|(nft & i & s2 & -> & Q & (T & O1 & _) & ->)]].
  - apply (quiet_log _ _ Q).
  - destruct (ND _ _ _ D).
  - eexists. split; [reflexivity|]. exists (t_owner nft). split; [exact O1|]. unfold transfer_tx.
    destruct (ta_created a); reflexivity.
Qed.

(** Every other call: a burn and a metadata update log one block, a mint one block per token (in order of the ids); the
    rest log nothing, whatever is answered. *)
Theorem C91_mint_recorded e s l s' k :
  step e (OMint l) s = (s', ANat k) ->
  exists bs, log s' = log s ++ bs /\ length bs = length l /\
    forall j r, l !! j = Some r -> exists i, bs !! j =
      Some (i, mkTx "7mint" (e_now e) (Some (k + N.of_nat j)) None (Some (mr_owner r)) None None None (mr_memo r)
                    (Some (e_now e))).
Proof.
  intros H. destruct (step_mint _ _ _ _ _ H) as (-> & _ & _ & _ & _ & _ & m & idxs & n & _ & Hl & ->).
  exists (zip idxs (mint_txs (e_now e) (last_id s) l)). split; [reflexivity|].
  split; [rewrite zip_with_length, mint_txs_length; lia|].
  clear H. generalize (last_id s). revert idxs Hl. induction l as [|r0 l IH]; intros [|i0 idxs] Hl id j r Hj; simpl in Hl; try discriminate.
  destruct j as [|j].
  - injection Hj as ->. exists i0. rewrite N.add_0_r. reflexivity.
  - destruct (IH idxs ltac:(lia) (id + 1) j r Hj) as (i & E). exists i.
    transitivity (zip idxs (mint_txs (e_now e) (id + 1) l) !! j); [reflexivity|]. rewrite E.
    replace (id + 1 + N.of_nat j) with (id + N.of_nat (S j)) by lia. reflexivity.
Qed.

Theorem C91_others_record_nothing e o s s' a :
  (forall l, o <> OTransfer l) -> (forall l, o <> OApproveTokens l) -> (forall l, o <> OApproveCollection l) ->
  (forall l, o <> ORevokeTokens l) -> (forall l, o <> ORevokeCollection l) -> (forall l, o <> OTransferFrom l) ->
  (forall l, o <> OMint l) -> (forall t, o <> OBurn t) -> (forall t l, o <> OUpdateMeta t l) ->
  step e o s = (s', a) -> log s' = log s.
Proof.
  intros N1 N2 N3 N4 N5 N6 N7 N8 N9 H.
  pose proof (step_rel (fun _ => True) (fun x y => log y = log x) e o s) as R. rewrite H in R. cbn [fst] in R.
  apply R; [reflexivity|congruence| |exact I]. intros x y _ M. split; [exact I|].
  destruct M; open_quiet; try reflexivity;
    try (match goal with X : forall l, ?f _ <> ?f l |- _ => destruct (X _ eq_refl) end);
    try (match goal with X : forall t l, ?f _ _ <> ?f t l |- _ => destruct (X _ _ eq_refl) end).
  destruct p, r; reflexivity.
Qed.

(** These calls do not even ask the log. *)
Theorem C91_others_ask_nothing e o s :
  (forall l, o <> OTransfer l) -> (forall l, o <> OApproveTokens l) -> (forall l, o <> OApproveCollection l) ->
  (forall l, o <> ORevokeTokens l) -> (forall l, o <> ORevokeCollection l) -> (forall l, o <> OTransferFrom l) ->
  (forall l, o <> OMint l) -> (forall t, o <> OBurn t) -> (forall t l, o <> OUpdateMeta t l) ->
  lcalls (fst (step e o s)) = lcalls s.
Proof.
  intros N1 N2 N3 N4 N5 N6 N7 N8 N9. destruct o;
    try (match goal with X : forall l, ?f _ <> ?f l |- _ => destruct (X _ eq_refl) end);
    try (match goal with X : forall t l, ?f _ _ <> ?f t l |- _ => destruct (X _ _ eq_refl) end); clear N1 N2 N3 N4 N5 N6 N7 N8 N9; cbn [step].
  - unfold update_collection_metadata, with_permission. destruct (has_permission _ _ _); [|reflexivity].
    rewrite (with_lock_eq _ _ _ (commutes_cfg u)). destruct (decide _); reflexivity.
  - change (ans_unit s (grant_permission e s p perm)) with (step e (OGrant p perm) s). rewrite step_grant.
    destruct (has_permission _ _ _); [|reflexivity]. destruct (decide _); reflexivity.
  - change (ans_unit s (revoke_permission e s p perm)) with (step e (ORevokePerm p perm) s). rewrite step_revoke_perm.
    destruct (has_permission _ _ _); [|reflexivity]. destruct (decide _); reflexivity.
  - unfold init_upload, upload_entry, guard_new, init_upload_first. repeat case_match; simplify_eq; reflexivity.
  - unfold store_chunk, upload_entry, guard_new, store_chunk_first. repeat case_match; simplify_eq; reflexivity.
  - unfold finalize_upload, upload_entry, guard_new, finalize_upload_first. repeat case_match; simplify_eq; reflexivity.
  - unfold cancel_upload, upload_entry, guard_new, cancel_upload_first. repeat case_match; simplify_eq; reflexivity.
  - unfold resume. destruct (pend s !! id) as [p|]; [|reflexivity].
    assert (C : lcalls (fst (continue (e_now e) p r s)) = lcalls s) by (unfold continue; repeat case_match; simplify_eq; reflexivity).
    destruct (continue (e_now e) p r s) as [s1 a]. cbn [fst] in C. repeat case_match; simplify_eq; exact C.
  - reflexivity.
Qed.
Print Assumptions C91_others_ask_nothing.

(** Two items, one refused: one block, under the number answered. *)
Example C91_case :
  (forall k b n, e_log (from_ alice 3000000000) k b <> LDup n) /\
  snd (step (from_ alice 3000000000) (OTransfer [xfer bob 3; xfer bob 1]) demo2) =
    ABatch [Err EInvalidRecipient; Ok 5] /\
  successes [xfer bob 3; xfer bob 1] [Err EInvalidRecipient; Ok 5] = [(xfer bob 1, 5)] /\
  map fst (log (fst (step (from_ alice 3000000000) (OTransfer [xfer bob 3; xfer bob 1]) demo2))) = [0; 1; 2; 3; 4; 5].
Proof. split; [intros k b n; discriminate|]. vm_compute. auto. Qed.

Print Assumptions C89_strangers_change_nothing.
Print Assumptions C89_strangers_history.
Print Assumptions C90_log_append_only.
Print Assumptions C90_log_chronological.
Print Assumptions C91_approvals_recorded.
Print Assumptions C91_collection_approvals_recorded.
Print Assumptions C91_revocations_recorded.
Print Assumptions C91_collection_revocations_recorded.
Print Assumptions C91_transfers_from_recorded.
Print Assumptions C91_transfers_recorded_refuted.
Print Assumptions C91_transfers_recorded_partial.
Print Assumptions C91_mint_recorded.
Print Assumptions C91_others_record_nothing.
