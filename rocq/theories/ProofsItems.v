(** Inversion lemmas: what each item function can do to the state. *)
From Verif Require Import Base ModelPrincipal ModelState ModelIcrc7 ModelIcrc37 ModelManagement ModelLifecycle
  ModelQueries ModelStep.

(** Only the rate limiter's memory and the ghost counter differ. *)
Definition quiet (s s' : state) : Prop :=
  exists w n, s' = set_windows w (set_lcalls n s).

Lemma quiet_refl s : quiet s s.
Proof. exists (windows s), (lcalls s). destruct s; reflexivity. Qed.

Lemma quiet_trans s1 s2 s3 : quiet s1 s2 -> quiet s2 s3 -> quiet s1 s3.
Proof.
  intros (w & n & ->) (w' & n' & ->). exists w', n'. destruct s1; reflexivity.
Qed.

Lemma quiet_guard now tid s : quiet s (fst (guard_sliding_window now tid s)).
Proof.
  unfold guard_sliding_window. destruct (_ <=? _); simpl.
  - eexists _, (lcalls s). destruct s; reflexivity.
  - eexists _, (lcalls s). destruct s; reflexivity.
Qed.

Lemma guard_quiet now tid s s' b : guard_sliding_window now tid s = (s', b) -> quiet s s'.
Proof. intros H. pose proof (quiet_guard now tid s) as Q. rewrite H in Q. exact Q. Qed.

Lemma add_transaction_inv e t s s' ans :
  add_transaction e t s = (s', ans) ->
  ans = e_log e (lcalls s) t /\
  ((exists i, ans = LOk i /\ s' = set_log (log s ++ [(i, t)]) (set_lcalls (lcalls s + 1) s)) \/
   ((forall i, ans <> LOk i) /\ quiet s s')).
Proof.
  unfold add_transaction. intros H.
  destruct (e_log e (lcalls s) t) eqn:E; inversion H; subst; split; auto;
    try (right; split; [discriminate|]; exists (windows s), (lcalls s + 1); destruct s; reflexivity).
  left. eexists; split; eauto.
Qed.

Ltac quiet_fields H :=
  let w := fresh "w" in let n := fresh "n" in destruct H as (w & n & ->); simpl in *.

Section quiet_projs.
  Context (s s' : state) (Q : quiet s s').
  Ltac go := destruct Q as (w & n & ->); reflexivity.
  Lemma quiet_cfg : cfg s' = cfg s. Proof. go. Qed.
  Lemma quiet_perms : perms s' = perms s. Proof. go. Qed.
  Lemma quiet_tokens : tokens s' = tokens s. Proof. go. Qed.
  Lemma quiet_by_owner : by_owner s' = by_owner s. Proof. go. Qed.
  Lemma quiet_last_id : last_id s' = last_id s. Proof. go. Qed.
  Lemma quiet_redirs : redirs s' = redirs s. Proof. go. Qed.
  Lemma quiet_subs : subs s' = subs s. Proof. go. Qed.
  Lemma quiet_tok_appr : tok_appr s' = tok_appr s. Proof. go. Qed.
  Lemma quiet_col_appr : col_appr s' = col_appr s. Proof. go. Qed.
  Lemma quiet_metas : metas s' = metas s. Proof. go. Qed.
  Lemma quiet_guards : guards s' = guards s. Proof. go. Qed.
  Lemma quiet_files : files s' = files s. Proof. go. Qed.
  Lemma quiet_log : log s' = log s. Proof. go. Qed.
  Lemma quiet_pend : pend s' = pend s. Proof. go. Qed.
  Lemma quiet_next_pend : next_pend s' = next_pend s. Proof. go. Qed.
End quiet_projs.

Lemma acc_eqb_true a b : acc_eqb a b = true <-> akey a = akey b.
Proof. unfold acc_eqb. apply bool_decide_eq_true. Qed.
Lemma acc_eqb_false a b : acc_eqb a b = false <-> akey a <> akey b.
Proof. unfold acc_eqb. apply bool_decide_eq_false. Qed.

(** ** icrc7_transfer items *)

(** The checks an accepted transfer has passed. *)
Definition transfer_checked (e : env) (s : state) (a : transfer_arg) (nft : token) : Prop :=
  tokens s !! ta_tid a = Some nft /\
  acc_owner (t_owner nft) = e_caller e /\
  acc_owner (ta_to a) <> anonymous /\
  akey (t_owner nft) <> akey (ta_to a) /\
  check_memo s (ta_memo a) = Some true /\
  exists drift win,
    u64_setting (c_drift (cfg s)) default_drift = Some drift /\
    u64_setting (c_tx_window (cfg s)) default_tx_window = Some win /\
    default (e_now e) (ta_created a) <= add64 (e_now e) drift /\
    sat_sub (e_now e) (add64 win drift) <= default (e_now e) (ta_created a).

Lemma transfer_nft_inv e s a s' r :
  transfer_nft e s a = Some (s', r) ->
  (quiet s s' /\ exists er, r = Err er) \/
  (exists nft n, r = Ok n /\ quiet s s' /\ transfer_checked e s a nft /\
     exists k, e_log e k (transfer_tx (e_now e) nft a (default (e_now e) (ta_created a))) = LDup n) \/
  (exists nft i s1, r = Ok i /\ quiet s s1 /\ transfer_checked e s a nft /\
     s' = move_token nft (ta_to a)
            (set_log (log s ++ [(i, transfer_tx (e_now e) nft a (default (e_now e) (ta_created a)))]) s1)).
Proof.
  unfold transfer_nft. intros H.
  destruct (guard_sliding_window (e_now e) (ta_tid a) s) as [s1 pass] eqn:G.
  pose proof (guard_quiet _ _ _ _ _ G) as Q1.
  destruct pass; simpl in H; [|injection H as <- <-; left; eauto].
  rewrite (quiet_tokens _ _ Q1) in H.
  destruct (tokens s !! ta_tid a) as [nft|] eqn:T; [|injection H as <- <-; left; eauto].
  assert (Ecm : check_memo s1 (ta_memo a) = check_memo s (ta_memo a)).
  { unfold check_memo. rewrite (quiet_cfg _ _ Q1). reflexivity. }
  rewrite Ecm in H.
  destruct (check_memo s (ta_memo a)) as [[|]|] eqn:CM; [| injection H as <- <-; left; eauto | discriminate].
  destruct (negb (bool_decide (acc_owner (t_owner nft) = e_caller e))) eqn:E1; simpl in H;
    [injection H as <- <-; left; eauto|].
  destruct (bool_decide (acc_owner (ta_to a) = anonymous)) eqn:E2; simpl in H;
    [injection H as <- <-; left; eauto|].
  destruct (acc_eqb (t_owner nft) (ta_to a)) eqn:E3; simpl in H; [injection H as <- <-; left; eauto|].
  rewrite (quiet_cfg _ _ Q1) in H.
  destruct (u64_setting (c_drift (cfg s)) default_drift) as [drift|] eqn:D; [|discriminate].
  destruct (add64 (e_now e) drift <? default (e_now e) (ta_created a)) eqn:F; [injection H as <- <-; left; eauto|].
  destruct (u64_setting (c_tx_window (cfg s)) default_tx_window) as [win|] eqn:W; [|discriminate].
  destruct (default (e_now e) (ta_created a) <? sat_sub (e_now e) (add64 win drift)) eqn:O;
    [injection H as <- <-; left; eauto|].
  assert (TC : transfer_checked e s a nft).
  { apply negb_false_iff, bool_decide_eq_true in E1.
    apply bool_decide_eq_false in E2. apply acc_eqb_false in E3.
    apply N.ltb_ge in F. apply N.ltb_ge in O.
    repeat split; auto. exists drift, win. auto. }
  destruct (add_transaction e _ s1) as [s2 ans] eqn:A.
  destruct (add_transaction_inv _ _ _ _ _ A) as (Hans & [(i & -> & ->)|[Hn Q2]]).
  - injection H as <- <-. right; right.
    exists nft, i, (set_lcalls (lcalls s1 + 1) s1).
    repeat split; try apply TC; auto.
    + eapply quiet_trans; [exact Q1|]. exists (windows s1), (lcalls s1 + 1). destruct s1; reflexivity.
    + rewrite (quiet_log _ _ Q1). reflexivity.
  - assert (Q : quiet s s2) by (eapply quiet_trans; eauto).
    destruct ans as [i|n|m|m]; [destruct (Hn i eq_refl)| | |]; injection H as <- <-.
    + right; left. exists nft, n. split; [reflexivity|]. split; [exact Q|]. split; [exact TC|].
      exists (lcalls s1). auto.
    + left; eauto.
    + left; eauto.
Qed.

(** ** Approvals *)
Lemma approve_token_inv e s a s' r :
  approve_token e s a = Some (s', r) ->
  (quiet s s' /\ exists er, r = Err er) \/
  (exists s1 i owner, r = Ok i /\ quiet s s1 /\
     let info := ap_info a in
     let from := mkAcc (e_caller e) (ai_from_sub info) in
     owner_of s (ap_tid a) = Some owner /\ akey owner = akey from /\
     akey (ai_spender info) <> akey anonymous_account /\
     verify_approval_timing s (ai_created info) (e_now e) = TimeOk /\
     (forall m, tok_appr s !! ap_tid a = Some m -> N.of_nat (size m) < usize_limit (c_max_appr (cfg s))) /\
     s' = set_tok_appr (<[ap_tid a := appmap_insert (ai_spender info) (new_approval info from (e_now e))
                             (default ∅ (tok_appr s !! ap_tid a))]> (tok_appr s))
           (set_log (log s ++ [(i, approve_tx "37approve" (e_now e) (Some (ap_tid a)) from info)]) s1)).
Proof.
  unfold approve_token. intros H.
  destruct (guard_sliding_window (e_now e) (ap_tid a) s) as [s1 pass] eqn:G.
  pose proof (guard_quiet _ _ _ _ _ G) as Q1.
  destruct pass; simpl in H; [|injection H as <- <-; left; eauto].
  assert (EV : verify_approval_timing s1 (ai_created (ap_info a)) (e_now e)
             = verify_approval_timing s (ai_created (ap_info a)) (e_now e)).
  { unfold verify_approval_timing. rewrite (quiet_cfg _ _ Q1). reflexivity. }
  rewrite EV in H.
  destruct (verify_approval_timing s _ _) eqn:V; [|injection H as <- <-; left; eauto..].
  assert (EO : owner_of s1 (ap_tid a) = owner_of s (ap_tid a))
    by (unfold owner_of; rewrite (quiet_tokens _ _ Q1); reflexivity).
  rewrite EO in H.
  destruct (owner_of s (ap_tid a)) as [owner|] eqn:O; [|injection H as <- <-; left; eauto].
  destruct (acc_eqb owner _) eqn:E1; simpl in H; [|injection H as <- <-; left; eauto].
  destruct (acc_eqb (ai_spender _) anonymous_account) eqn:E2; [injection H as <- <-; left; eauto|].
  rewrite (quiet_tok_appr _ _ Q1), (quiet_cfg _ _ Q1) in H.
  set (exceed := match tok_appr s !! ap_tid a with Some m => _ | None => _ end) in H.
  destruct exceed eqn:X; [injection H as <- <-; left; eauto|].
  destruct (add_transaction e _ s1) as [s2 ans] eqn:A.
  destruct (add_transaction_inv _ _ _ _ _ A) as (Hans & [(i & -> & ->)|[Hn Q2]]).
  - destruct (ap_tid a <? two64) eqn:K; [|discriminate]. injection H as <- <-. right.
    exists (set_lcalls (lcalls s1 + 1) s1), i, owner.
    apply acc_eqb_true in E1. apply acc_eqb_false in E2.
    repeat split; auto.
    + eapply quiet_trans; [exact Q1|]. exists (windows s1), (lcalls s1 + 1). destruct s1; reflexivity.
    + intros m Hm. unfold exceed in X. rewrite Hm in X. apply N.leb_gt in X. exact X.
    + rewrite <- (quiet_tok_appr _ _ Q1), <- (quiet_log _ _ Q1). reflexivity.
  - assert (Q : quiet s s2) by (eapply quiet_trans; eauto).
    destruct ans as [i|n|m|m]; [destruct (Hn i eq_refl)| | |]; injection H as <- <-; left; eauto.
Qed.

Lemma approve_collection_inv e s i s' r :
  approve_collection e s i = Some (s', r) ->
  (quiet s s' /\ exists er, r = Err er) \/
  (exists s1 idx, r = Ok idx /\ quiet s s1 /\
     let from := mkAcc (e_caller e) (ai_from_sub i) in
     akey (ai_spender i) <> akey anonymous_account /\
     has_nfts s (e_caller e) = true /\
     verify_approval_timing s (ai_created i) (e_now e) = TimeOk /\
     (forall m, col_appr s !! akey from = Some m -> N.of_nat (size m) < usize_limit (c_max_appr (cfg s))) /\
     s' = set_col_appr (<[akey from := appmap_insert (ai_spender i) (new_approval i from (e_now e))
                             (default ∅ (col_appr s !! akey from))]> (col_appr s))
           (set_log (log s ++ [(idx, approve_tx "37approve_coll" (e_now e) None from i)]) s1)).
Proof.
  unfold approve_collection. intros H.
  destruct (guard_sliding_window (e_now e) 0 s) as [s1 pass] eqn:G.
  pose proof (guard_quiet _ _ _ _ _ G) as Q1.
  destruct pass; simpl in H; [|injection H as <- <-; left; eauto].
  assert (EV : verify_approval_timing s1 (ai_created i) (e_now e)
             = verify_approval_timing s (ai_created i) (e_now e)).
  { unfold verify_approval_timing. rewrite (quiet_cfg _ _ Q1). reflexivity. }
  rewrite EV in H.
  destruct (verify_approval_timing s _ _) eqn:V; [|injection H as <- <-; left; eauto..].
  destruct (acc_eqb (ai_spender _) anonymous_account) eqn:E2; [injection H as <- <-; left; eauto|].
  assert (EN : has_nfts s1 (e_caller e) = has_nfts s (e_caller e))
    by (unfold has_nfts; rewrite (quiet_tokens _ _ Q1); reflexivity).
  rewrite EN in H.
  destruct (has_nfts s (e_caller e)) eqn:E1; simpl in H; [|injection H as <- <-; left; eauto].
  rewrite (quiet_col_appr _ _ Q1), (quiet_cfg _ _ Q1) in H.
  match type of H with (if ?b then _ else _) = _ => set (exceed := b) in H end.
  destruct exceed eqn:X; [injection H as <- <-; left; eauto|].
  destruct (add_transaction e _ s1) as [s2 ans] eqn:A.
  destruct (add_transaction_inv _ _ _ _ _ A) as (Hans & [(idx & -> & ->)|[Hn Q2]]).
  - injection H as <- <-. right.
    exists (set_lcalls (lcalls s1 + 1) s1), idx.
    apply acc_eqb_false in E2.
    repeat split; auto.
    + eapply quiet_trans; [exact Q1|]. exists (windows s1), (lcalls s1 + 1). destruct s1; reflexivity.
    + intros m Hm. unfold exceed in X. rewrite Hm in X. apply N.leb_gt in X. exact X.
    + rewrite <- (quiet_col_appr _ _ Q1), <- (quiet_log _ _ Q1). reflexivity.
  - assert (Q : quiet s s2) by (eapply quiet_trans; eauto).
    destruct ans as [idx|n|m|m]; [destruct (Hn idx eq_refl)| | |]; injection H as <- <-; left; eauto.
Qed.

Lemma revoke_token_inv e s a s' r :
  revoke_token_approvals e s a = Some (s', r) ->
  (quiet s s' /\ exists er, r = Err er) \/
  (exists s1 i owner m, r = Ok i /\ quiet s s1 /\
     let from := mkAcc (e_caller e) (rv_from_sub a) in
     owner_of s (rv_tid a) = Some owner /\ akey owner = akey from /\
     tok_appr s !! rv_tid a = Some m /\
     verify_opt_timing s (rv_created a) (e_now e) = TimeOk /\
     s' = set_tok_appr (<[rv_tid a := revoke_from (rv_spender a) m]> (tok_appr s))
           (set_log (log s ++ [(i, revoke_tx "37revoke" (e_now e) (Some (rv_tid a)) from (rv_spender a)
                                     (rv_memo a) (rv_created a))]) s1)).
Proof.
  unfold revoke_token_approvals. intros H.
  destruct (verify_opt_timing s _ _) eqn:V; [|injection H as <- <-; left; split; [apply quiet_refl|eauto]..].
  destruct (owner_of s (rv_tid a)) as [owner|] eqn:O;
    [|injection H as <- <-; left; split; [apply quiet_refl|eauto]].
  destruct (acc_eqb owner _) eqn:E1; simpl in H; [|injection H as <- <-; left; split; [apply quiet_refl|eauto]].
  destruct (tok_appr s !! rv_tid a) as [m|] eqn:T; [|injection H as <- <-; left; split; [apply quiet_refl|eauto]].
  destruct (add_transaction e _ s) as [s2 ans] eqn:A.
  destruct (add_transaction_inv _ _ _ _ _ A) as (Hans & [(idx & -> & ->)|[Hn Q2]]).
  - injection H as <- <-. right.
    exists (set_lcalls (lcalls s + 1) s), idx, owner, m.
    apply acc_eqb_true in E1.
    repeat split; auto.
    exists (windows s), (lcalls s + 1). destruct s; reflexivity.
  - destruct ans as [idx|n|m'|m']; [destruct (Hn idx eq_refl)| | |]; injection H as <- <-; left; eauto.
Qed.

Lemma revoke_collection_inv e s a s' r :
  revoke_collection_approvals e s a = Some (s', r) ->
  (quiet s s' /\ exists er, r = Err er) \/
  (exists s1 i m, r = Ok i /\ quiet s s1 /\
     let from := mkAcc (e_caller e) None in
     col_appr s !! akey from = Some m /\
     verify_opt_timing s (rc_created a) (e_now e) = TimeOk /\
     s' = set_col_appr (<[akey from := revoke_from (rc_spender a) m]> (col_appr s))
           (set_log (log s ++ [(i, revoke_tx "37revoke_coll" (e_now e) None from (rc_spender a)
                                     (rc_memo a) (rc_created a))]) s1)).
Proof.
  unfold revoke_collection_approvals. intros H.
  destruct (guard_sliding_window (e_now e) 0 s) as [s1 pass] eqn:G.
  pose proof (guard_quiet _ _ _ _ _ G) as Q1.
  destruct pass; simpl in H; [|injection H as <- <-; left; eauto].
  assert (EV : verify_opt_timing s1 (rc_created a) (e_now e) = verify_opt_timing s (rc_created a) (e_now e)).
  { unfold verify_opt_timing, verify_approval_timing. rewrite (quiet_cfg _ _ Q1). reflexivity. }
  rewrite EV in H.
  destruct (verify_opt_timing s _ _) eqn:V; [|injection H as <- <-; left; eauto..].
  rewrite (quiet_col_appr _ _ Q1) in H.
  destruct (col_appr s !! _) as [m|] eqn:T; [|injection H as <- <-; left; eauto].
  destruct (add_transaction e _ s1) as [s2 ans] eqn:A.
  destruct (add_transaction_inv _ _ _ _ _ A) as (Hans & [(idx & -> & ->)|[Hn Q2]]).
  - injection H as <- <-. right.
    exists (set_lcalls (lcalls s1 + 1) s1), idx, m.
    repeat split; auto.
    + eapply quiet_trans; [exact Q1|]. exists (windows s1), (lcalls s1 + 1). destruct s1; reflexivity.
    + rewrite <- (quiet_col_appr _ _ Q1), <- (quiet_log _ _ Q1). reflexivity.
  - assert (Q : quiet s s2) by (eapply quiet_trans; eauto).
    destruct ans as [idx|n|m'|m']; [destruct (Hn idx eq_refl)| | |]; injection H as <- <-; left; eauto.
Qed.

(** ** transfer_from *)

(** Expired approvals dropped while checking. *)
Definition unexpired (now : N) (ap : approval) : bool :=
  match a_expires ap with Some x => now <? x | None => true end.

(** Approval of [sp] in a map of approvals. *)
Definition has_valid (now : N) (m : option appmap) (sp : acckey) : bool :=
  match m with
  | Some m => match m !! sp with Some (_, ap) => unexpired now ap | None => false end
  | None => false
  end.

(** Map entry of [k] with the expired approval of [sp] removed. *)
Definition drop_expired {K} `{Countable K} (now : N) (k : K) (sp : acckey) (M : gmap K appmap) : gmap K appmap :=
  match M !! k with
  | Some m => match m !! sp with
              | Some (_, ap) => if unexpired now ap then M else <[k := delete sp m]> M
              | None => M
              end
  | None => M
  end.

Lemma check_token_approval_eq now tid sp s :
  check_token_approval now tid sp s =
    (set_tok_appr (drop_expired now tid (akey sp) (tok_appr s)) s, has_valid now (tok_appr s !! tid) (akey sp)).
Proof.
  unfold check_token_approval, drop_expired, has_valid, unexpired.
  destruct (tok_appr s !! tid) as [m|] eqn:T; [|destruct s; reflexivity].
  destruct (m !! akey sp) as [[k ap]|] eqn:A; [|destruct s; reflexivity].
  destruct (a_expires ap) as [x|] eqn:X; [|destruct s; reflexivity].
  destruct (x <=? now) eqn:L.
  - apply N.leb_le in L. assert ((now <? x) = false) as -> by (apply N.ltb_ge; exact L). reflexivity.
  - apply N.leb_gt in L. assert ((now <? x) = true) as -> by (apply N.ltb_lt; exact L). destruct s; reflexivity.
Qed.

Lemma check_collection_approval_eq now ow sp s :
  check_collection_approval now ow sp s =
    (set_col_appr (drop_expired now (akey ow) (akey sp) (col_appr s)) s,
     has_valid now (col_appr s !! akey ow) (akey sp)).
Proof.
  unfold check_collection_approval, drop_expired, has_valid, unexpired.
  destruct (col_appr s !! akey ow) as [m|] eqn:T; [|destruct s; reflexivity].
  destruct (m !! akey sp) as [[k ap]|] eqn:A; [|destruct s; reflexivity].
  destruct (a_expires ap) as [x|] eqn:X; [|destruct s; reflexivity].
  destruct (x <=? now) eqn:L.
  - apply N.leb_le in L. assert ((now <? x) = false) as -> by (apply N.ltb_ge; exact L). reflexivity.
  - apply N.leb_gt in L. assert ((now <? x) = true) as -> by (apply N.ltb_lt; exact L). destruct s; reflexivity.
Qed.

(** State after the two approval checks. *)
Definition drop_both (now : N) (a : transfer_from_arg) (sp : account) (owner : account) (s : state) : state :=
  set_col_appr (drop_expired now (akey owner) (akey sp) (col_appr s))
    (set_tok_appr (drop_expired now (tf_tid a) (akey sp) (tok_appr s)) s).

Lemma transfer_from_inv e s a s' r :
  transfer_from e s a = Some (s', r) ->
  let sp := mkAcc (e_caller e) (tf_spender_sub a) in
  (quiet s s' /\ exists er, r = Err er) \/
  (exists nft s1 er, r = Err er /\ quiet s s1 /\ tokens s !! tf_tid a = Some nft /\
     s' = drop_both (e_now e) a sp (t_owner nft) s1) \/
  (exists nft s1 i, r = Ok i /\ quiet s s1 /\ tokens s !! tf_tid a = Some nft /\
     verify_opt_timing s (tf_created a) (e_now e) = TimeOk /\
     akey (tf_from a) <> akey (tf_to a) /\
     akey (tf_to a) <> akey anonymous_account /\
     akey (t_owner nft) = akey (tf_from a) /\
     (akey sp = akey (tf_from a) \/
      has_valid (e_now e) (tok_appr s !! tf_tid a) (akey sp) = true \/
      has_valid (e_now e) (col_appr s !! akey (t_owner nft)) (akey sp) = true) /\
     let s2 := drop_both (e_now e) a sp (t_owner nft) s1 in
     let s3 := set_log (log s ++ [(i, transfer_from_tx (e_now e) a sp)]) s2 in
     let s4 := move_token nft (tf_to a) s3 in
     s' = set_col_appr (delete (akey (tf_from a)) (col_appr s4))
            (set_tok_appr (delete (tf_tid a) (tok_appr s4)) s4)).
Proof.
  intros H sp. unfold transfer_from in H.
  destruct (guard_sliding_window (e_now e) (tf_tid a) s) as [s1 pass] eqn:G.
  pose proof (guard_quiet _ _ _ _ _ G) as Q1.
  destruct pass; cbn [negb] in H; [|injection H as <- <-; left; eauto].
  assert (EV : verify_opt_timing s1 (tf_created a) (e_now e) = verify_opt_timing s (tf_created a) (e_now e)).
  { unfold verify_opt_timing, verify_approval_timing. rewrite (quiet_cfg _ _ Q1). reflexivity. }
  rewrite EV in H.
  destruct (verify_opt_timing s _ _) eqn:V; [|injection H as <- <-; left; eauto..].
  rewrite (quiet_tokens _ _ Q1) in H.
  destruct (tokens s !! tf_tid a) as [nft|] eqn:T; [|injection H as <- <-; left; eauto].
  destruct (acc_eqb (tf_from a) (tf_to a)) eqn:E1; [injection H as <- <-; left; eauto|].
  destruct (acc_eqb (tf_to a) anonymous_account) eqn:E2; [injection H as <- <-; left; eauto|].
  fold sp in H.
  rewrite check_token_approval_eq in H.
  rewrite check_collection_approval_eq in H.
  cbn [set_tok_appr tok_appr col_appr] in H.
  change (set_col_appr (drop_expired (e_now e) (akey (t_owner nft)) (akey sp)
            (col_appr (set_tok_appr (drop_expired (e_now e) (tf_tid a) (akey sp) (tok_appr s1)) s1)))
            (set_tok_appr (drop_expired (e_now e) (tf_tid a) (akey sp) (tok_appr s1)) s1))
    with (drop_both (e_now e) a sp (t_owner nft) s1) in H.
  match type of H with (if ?b then _ else _) = _ => destruct b eqn:B end.
  { injection H as <- <-. right; left. exists nft, s1, EUnauthorized. auto. }
  apply orb_false_iff in B. destruct B as [B1 B2].
  apply negb_false_iff, acc_eqb_true in B1.
  destruct (add_transaction e _ _) as [s2 ans] eqn:A.
  destruct (add_transaction_inv _ _ _ _ _ A) as (Hans & [(i & -> & ->)|[Hn Q2]]).
  - injection H as <- <-. right; right.
    apply acc_eqb_false in E1. apply acc_eqb_false in E2.
    assert (Ql : quiet s (set_lcalls (lcalls s1 + 1) s1)).
    { eapply quiet_trans; [exact Q1|]. exists (windows s1), (lcalls s1 + 1). destruct s1; reflexivity. }
    exists nft, (set_lcalls (lcalls s1 + 1) s1), i.
    repeat split; auto.
    + simpl in B2.
      assert (B2' : acc_eqb sp (tf_from a) = true \/ has_valid (e_now e) (tok_appr s1 !! tf_tid a) (akey sp) = true
                  \/ has_valid (e_now e) (col_appr s1 !! akey (t_owner nft)) (akey sp) = true).
      { destruct (acc_eqb sp (tf_from a)); auto. destruct (has_valid _ (tok_appr s1 !! _) _); auto.
        destruct (has_valid _ (col_appr s1 !! _) _); auto. }
      rewrite (quiet_tok_appr _ _ Q1), (quiet_col_appr _ _ Q1) in B2'.
      rewrite acc_eqb_true in B2'. exact B2'.
    + rewrite <- (quiet_log _ _ Q1). reflexivity.
  - assert (Q3 : exists s1', quiet s s1' /\ s2 = drop_both (e_now e) a sp (t_owner nft) s1').
    { destruct Q2 as (w & n & ->). exists (set_windows w (set_lcalls n s1)). split.
      - eapply quiet_trans; [exact Q1|]. exists w, n. reflexivity.
      - reflexivity. }
    destruct Q3 as (s1' & Q3 & ->).
    right; left.
    destruct ans as [i|n|m|m]; [destruct (Hn i eq_refl)| | |]; injection H as <- <-; eauto 10.
Qed.

(** ** Batches *)
Section items.
  Context {A B : Type} (f : state -> A -> option (state * B)).

  (** Invariant [P] and preorder [R] carried through a batch. *)
  Lemma run_items_ind (P : state -> Prop) (R : state -> state -> Prop) :
    (forall s, R s s) -> (forall s1 s2 s3, R s1 s2 -> R s2 s3 -> R s1 s3) ->
    (forall s a s' b, P s -> f s a = Some (s', b) -> P s' /\ R s s') ->
    forall l s s' bs, P s -> run_items f s l = Some (s', bs) -> P s' /\ R s s'.
  Proof.
    intros Rr Rt Hf l. induction l as [|a l IH]; intros s s' bs HP H; simpl in H.
    - injection H as <- <-. auto.
    - destruct (f s a) as [[s1 b]|] eqn:F; [|discriminate].
      destruct (run_items f s1 l) as [[s2 bs']|] eqn:G; [|discriminate].
      injection H as <- <-.
      destruct (Hf _ _ _ _ HP F) as [HP1 HR1].
      destruct (IH _ _ _ HP1 G) as [HP2 HR2]. eauto.
  Qed.

  Lemma run_items_length l s s' bs : run_items f s l = Some (s', bs) -> length bs = length l.
  Proof.
    revert s s' bs. induction l as [|a l IH]; intros s s' bs H; simpl in H.
    - injection H as <- <-. auto.
    - destruct (f s a) as [[s1 b]|]; [|discriminate].
      destruct (run_items f s1 l) as [[s2 bs']|] eqn:G; [|discriminate].
      injection H as <- <-. simpl. f_equal. eauto.
  Qed.

  (** Splitting a batch. *)
  Lemma run_items_app l1 l2 s :
    run_items f s (l1 ++ l2) =
      match run_items f s l1 with
      | None => None
      | Some (s1, b1) => match run_items f s1 l2 with
                         | None => None
                         | Some (s2, b2) => Some (s2, b1 ++ b2)
                         end
      end.
  Proof.
    revert s. induction l1 as [|a l1 IH]; intros s; simpl.
    - destruct (run_items f s l2) as [[? ?]|]; reflexivity.
    - destruct (f s a) as [[s1 b]|]; [|reflexivity].
      rewrite IH. destruct (run_items f s1 l1) as [[s2 b2]|]; [|reflexivity].
      destruct (run_items f s2 l2) as [[s3 b3]|]; reflexivity.
  Qed.

  (** Every entry of the answer is the answer of its item in the state left by the items before it. *)
  Lemma run_items_nth l s s' bs k a :
    run_items f s l = Some (s', bs) -> l !! k = Some a ->
    exists sk bk sk' b, run_items f s (take k l) = Some (sk, bk) /\ f sk a = Some (sk', b) /\ bs !! k = Some b.
  Proof.
    revert s s' bs k. induction l as [|x l IH]; intros s s' bs k H Hk; simpl in *; [rewrite lookup_nil in Hk; discriminate|].
    destruct (f s x) as [[s1 b]|] eqn:F; [|discriminate].
    destruct (run_items f s1 l) as [[s2 bs']|] eqn:G; [|discriminate].
    injection H as <- <-.
    destruct k as [|k]; simpl in *.
    - injection Hk as ->. exists s, [], s1, b. auto.
    - destruct (IH _ _ _ _ G Hk) as (sk & bk & sk' & b' & H1 & H2 & H3).
      exists sk, (b :: bk), sk', b'. rewrite F, H1. auto.
  Qed.
End items.
