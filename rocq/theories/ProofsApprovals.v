(** Token and collection approvals. *)
From Verif Require Import Base ModelPrincipal ModelState ModelIcrc7 ModelIcrc37 ModelManagement ModelLifecycle
  ModelQueries ModelStep ProofsItems ProofsManage ProofsMicro Spec ProofsCore ProofsOwner.

Lemma appmap_insert_lookup sp ap m k :
  snd <$> appmap_insert sp ap m !! k = if decide (akey sp = k) then Some ap else snd <$> m !! k.
Proof.
  unfold appmap_insert. destruct (m !! akey sp) as [[k0 ?]|] eqn:E; destruct (decide (akey sp = k)) as [<-|Hne];
    rewrite ?lookup_insert; rewrite ?lookup_insert_ne by exact Hne; reflexivity.
Qed.

Lemma appmap_insert_entry sp ap m k ka x :
  appmap_insert sp ap m !! k = Some (ka, x) -> (k = akey sp /\ x = ap) \/ (k <> akey sp /\ m !! k = Some (ka, x)).
Proof.
  unfold appmap_insert. destruct (m !! akey sp) as [[k0 ?]|] eqn:E; destruct (decide (akey sp = k)) as [<-|Hne];
    rewrite ?lookup_insert; rewrite ?lookup_insert_ne by exact Hne; intros X; try (injection X as <- <-); auto.
Qed.

Lemma appmap_insert_size sp ap m : (size (appmap_insert sp ap m) <= S (size m))%nat.
Proof.
  unfold appmap_insert. destruct (m !! akey sp) as [[k0 ?]|] eqn:E.
  - rewrite map_size_insert_Some by eauto. lia.
  - rewrite map_size_insert_None by exact E. lia.
Qed.

Global Instance approval_eqdec : EqDecision approval.
Proof. solve_decision. Defined.

(** ** Who changes approvals *)

(** The given message is an approve or revoke on [t] of a caller whose account owns [t], or a transfer_from of [t]. *)
Definition tok_cause (e : env) (o : op) (s : state) (t : N) : Prop :=
  (exists l a ow, o = OApproveTokens l /\ a ∈ l /\ ap_tid a = t /\ owner_of s t = Some ow /\
     akey ow = akey (mkAcc (e_caller e) (ai_from_sub (ap_info a)))) \/
  (exists l a ow, o = ORevokeTokens l /\ a ∈ l /\ rv_tid a = t /\ owner_of s t = Some ow /\
     akey ow = akey (mkAcc (e_caller e) (rv_from_sub a))) \/
  (exists l a, o = OTransferFrom l /\ a ∈ l /\ tf_tid a = t).

Definition col_cause (e : env) (o : op) (s : state) (k : acckey) : Prop :=
  (exists l a, o = OApproveCollection l /\ a ∈ l /\ k = akey (mkAcc (e_caller e) (ai_from_sub a))) \/
  (exists l a, o = ORevokeCollection l /\ a ∈ l /\ k = akey (mkAcc (e_caller e) None)) \/
  (exists l a, o = OTransferFrom l /\ a ∈ l).

Lemma drop_expired_other {K} `{Countable K} now (k : K) sp M k' :
  k <> k' -> drop_expired now k sp M !! k' = M !! k'.
Proof.
  intros Hne. unfold drop_expired. destruct (M !! k) as [m|]; [|reflexivity].
  destruct (m !! sp) as [[? ap]|]; [|reflexivity]. destruct (unexpired now ap); [reflexivity|].
  apply lookup_insert_ne. exact Hne.
Qed.

Lemma micro_tok_cause e o s s' t :
  micro e o s s' -> tok_appr s' !! t <> tok_appr s !! t -> tok_cause e o s t.
Proof.
  intros H Hn. revert Hn. micro_cases H; intros Hn; try (destruct (Hn eq_refl); fail).
  - destruct (decide (ap_tid a = t)) as [E|Hne]; [|rewrite lookup_insert_ne in Hn by exact Hne; destruct (Hn eq_refl)].
    left. exists l, a, owner. rewrite E in *. auto.
  - destruct (decide (rv_tid a = t)) as [E|Hne]; [|rewrite lookup_insert_ne in Hn by exact Hne; destruct (Hn eq_refl)].
    right; left. exists l, a, owner. rewrite E in *. auto.
  - destruct (decide (tf_tid a = t)) as [E|Hne]; [|rewrite drop_expired_other in Hn by exact Hne; destruct (Hn eq_refl)].
    right; right. eauto.
  - destruct (decide (tf_tid a = t)) as [E|Hne].
    + right; right. eauto.
    + rewrite lookup_delete_ne in Hn by exact Hne. rewrite drop_expired_other in Hn by exact Hne. destruct (Hn eq_refl).
Qed.

Lemma micro_col_cause e o s s' k :
  micro e o s s' -> col_appr s' !! k <> col_appr s !! k -> col_cause e o s k.
Proof.
  intros H Hn. revert Hn. micro_cases H; intros Hn; try (destruct (Hn eq_refl); fail).
  - match type of Hn with <[?x := _]> _ !! _ <> _ => destruct (decide (x = k)) as [E|Hne];
      [|rewrite lookup_insert_ne in Hn by exact Hne; destruct (Hn eq_refl)] end.
    left. exists l, a. auto.
  - match type of Hn with <[?x := _]> _ !! _ <> _ => destruct (decide (x = k)) as [E|Hne];
      [|rewrite lookup_insert_ne in Hn by exact Hne; destruct (Hn eq_refl)] end.
    right; left. exists l, a. auto.
  - right; right. eauto.
  - right; right. eauto.
Qed.

Definition approve_or_revoke (o : op) : Prop :=
  match o with OApproveTokens _ | ORevokeTokens _ => True | _ => False end.

Lemma micro_owner_same e o s s' : micro e o s s' -> approve_or_revoke o -> owners s' = owners s.
Proof. intros H Ho. unfold owners. micro_cases H; try reflexivity; destruct Ho. Qed.

Lemma tok_cause_back e o s s' t : micro e o s s' -> tok_cause e o s' t -> tok_cause e o s t.
Proof.
  intros H [C|[C|C]].
  - destruct C as (l & a & ow & -> & C1 & C2 & C3 & C4). left. exists l, a, ow.
    rewrite <- owners_lookup, (micro_owner_same _ _ _ _ H I), owners_lookup in C3. auto.
  - destruct C as (l & a & ow & -> & C1 & C2 & C3 & C4). right; left. exists l, a, ow.
    rewrite <- owners_lookup, (micro_owner_same _ _ _ _ H I), owners_lookup in C3. auto.
  - right; right. exact C.
Qed.

Lemma step_tok_cause e o s t :
  tok_appr (fst (step e o s)) !! t <> tok_appr s !! t -> tok_cause e o s t.
Proof.
  generalize (step_micros e o s). generalize (fst (step e o s)). intros s' H.
  induction H as [s|s s1 s2 Hm Hr IH]; intros Hn; [destruct (Hn eq_refl)|].
  destruct (decide (tok_appr s1 !! t = tok_appr s !! t)) as [E|E].
  - eapply tok_cause_back; [exact Hm|]. apply IH. congruence.
  - eapply micro_tok_cause; eauto.
Qed.

Lemma step_col_cause e o s k :
  col_appr (fst (step e o s)) !! k <> col_appr s !! k -> col_cause e o s k.
Proof.
  generalize (step_micros e o s). generalize (fst (step e o s)). intros s' H.
  induction H as [s|s s1 s2 Hm Hr IH]; intros Hn; [destruct (Hn eq_refl)|].
  destruct (decide (col_appr s1 !! k = col_appr s !! k)) as [E|E].
  - unfold col_cause in *. apply IH. congruence.
  - eapply micro_col_cause; eauto.
Qed.

(** ** Provenance: every stored approval stems from an accepted approve item *)

Definition tok_source (e : env) (l : list approve_arg) (rs : list (res N)) (s : state) (t : N) (k : acckey)
  (ap : approval) : Prop :=
  exists j a i ow, l !! j = Some a /\ rs !! j = Some (Ok i) /\ ap_tid a = t /\ akey (ai_spender (ap_info a)) = k /\
    ap = mkAppr (ai_spender (ap_info a)) (mkAcc (e_caller e) (ai_from_sub (ap_info a))) (ai_expires (ap_info a))
                (e_now e) (ai_memo (ap_info a)) /\
    owner_of s t = Some ow /\ akey ow = akey (a_from ap).

Lemma approve_items_source e l s s' rs t k ka ap m :
  run_items (approve_token e) s l = Some (s', rs) -> tok_appr s' !! t = Some m -> m !! k = Some (ka, ap) ->
  (exists m0 ka0, tok_appr s !! t = Some m0 /\ m0 !! k = Some (ka0, ap)) \/ tok_source e l rs s t k ap.
Proof.
  revert s rs. induction l as [|a l IH]; intros s rs R Hm Hk; simpl in R.
  - injection R as <- <-. left. eauto.
  - destruct (approve_token e s a) as [[s1 b]|] eqn:F; [|discriminate].
    destruct (run_items (approve_token e) s1 l) as [[s2 bs']|] eqn:G; [|discriminate].
    injection R as <- <-.
    assert (Tk : tokens s1 = tokens s).
    { destruct (approve_token_inv _ _ _ _ _ F) as [[Q _]|(s3 & i & ow & _ & Q & _ & _ & _ & _ & _ & ->)];
        open_quiet; reflexivity. }
    destruct (IH _ _ G Hm Hk) as [(m0 & ka0 & E1 & E2)|(j & a' & i & ow & S1 & S2 & S3 & S4 & S5 & S6 & S7)].
    + destruct (approve_token_inv _ _ _ _ _ F) as [[Q _]|(s3 & i & ow & -> & Q & O1 & O2 & _ & _ & _ & ->)].
      * open_quiet. left. eauto.
      * simpl in E1. destruct (decide (ap_tid a = t)) as [Et|Hne].
        -- rewrite Et, lookup_insert in E1. injection E1 as <-.
           apply appmap_insert_entry in E2. destruct E2 as [[-> ->]|[Hne E2]].
           ++ right. exists 0%nat, a, i, ow. rewrite Et in O1. splits; auto.
           ++ left. destruct (tok_appr s !! t) as [m1|] eqn:E3; [|simpl in E2; rewrite lookup_empty in E2; discriminate].
              eauto.
        -- rewrite lookup_insert_ne in E1 by exact Hne. left; eauto.
    + right. exists (S j), a', i, ow. rewrite owner_of_tokens, Tk in S6. splits; auto.
Qed.

Lemma micro_approvals_shrink e o s s' t m' :
  micro e o s s' -> (forall l, o <> OApproveTokens l) -> tok_appr s' !! t = Some m' ->
  exists m, tok_appr s !! t = Some m /\ m' ⊆ m.
Proof.
  intros H Ho. micro_cases H; intros X; try (eexists; split; [exact X|reflexivity]).
  - destruct (Ho l eq_refl).
  - destruct (decide (rv_tid a = t)) as [E|Hne].
    + rewrite E in *. rewrite lookup_insert in X. injection X as <-. exists m. split; [assumption|].
      unfold revoke_from. destruct (rv_spender a); [apply delete_subseteq|apply map_empty_subseteq].
    + rewrite lookup_insert_ne in X by exact Hne. eauto.
  - eapply drop_expired_sub; eauto.
  - apply lookup_delete_Some in X. destruct X as [_ X]. eapply drop_expired_sub; eauto.
Qed.

Lemma step_approvals_shrink e o s t m' :
  (forall l, o <> OApproveTokens l) -> tok_appr (fst (step e o s)) !! t = Some m' ->
  exists m, tok_appr s !! t = Some m /\ m' ⊆ m.
Proof.
  intros Ho. generalize (step_micros e o s). generalize (fst (step e o s)). intros s' H.
  revert m'. induction H as [s|s s1 s2 Hm Hr IH]; intros m' X; [eauto|].
  destruct (IH _ X) as (m1 & E1 & S1). destruct (micro_approvals_shrink _ _ _ _ _ _ Hm Ho E1) as (m & E & S).
  exists m. split; [exact E|]. etransitivity; eauto.
Qed.

Lemma step_tok_source e o s t m k ka ap :
  tok_appr (fst (step e o s)) !! t = Some m -> m !! k = Some (ka, ap) ->
  (exists m0 ka0, tok_appr s !! t = Some m0 /\ m0 !! k = Some (ka0, ap)) \/
  (exists l rs, o = OApproveTokens l /\ snd (step e o s) = ABatch rs /\ tok_source e l rs s t k ap).
Proof.
  intros Hm Hk.
  assert (D : (exists l, o = OApproveTokens l) \/ ~ (exists l, o = OApproveTokens l))
    by (destruct o; (left; eexists; reflexivity) || (right; intros [? ?]; discriminate)).
  destruct D as [[l ->]|Hn].
  2:{ left. destruct (step_approvals_shrink e o s t m) as (m0 & E & S); [intros l El; apply Hn; eauto|exact Hm|].
      exists m0, ka. split; [exact E|]. eapply lookup_weaken; eauto. }
  simpl in *. unfold icrc37_approve_tokens in *. destruct (run_items _ _ _) as [[s' rs]|] eqn:R; simpl in *.
  - destruct (approve_items_source _ _ _ _ _ _ _ _ _ _ R Hm Hk) as [X|X]; [left; exact X|right; eauto].
  - left. eauto.
Qed.

Lemma trace_tok_source h s t m k ka ap :
  tok_appr (run h s) !! t = Some m -> m !! k = Some (ka, ap) ->
  (exists m0 ka0, tok_appr s !! t = Some m0 /\ m0 !! k = Some (ka0, ap)) \/
  (exists ev l rs, ev ∈ trace h s /\ ev_op ev = OApproveTokens l /\ ev_ans ev = ABatch rs /\
     tok_source (ev_env ev) l rs (ev_before ev) t k ap).
Proof.
  revert s m ka. induction h as [|[e o] h IH]; intros s m ka Hm Hk; simpl in *; [eauto|].
  pose proof (step_tok_source e o s t) as ST.
  destruct (step e o s) as [s1 an] eqn:S. simpl in *.
  destruct (IH _ _ _ Hm Hk) as [(m0 & ka0 & E1 & E2)|(ev & l & rs & E1 & E2)].
  - destruct (ST _ _ _ _ E1 E2) as [X|(l & rs & X1 & X2 & X3)]; [left; exact X|].
    right. exists (mkEv s e o an s1), l, rs. split; [left|]. simpl. auto.
  - right. exists ev, l, rs. split; [right; exact E1|exact E2].
Qed.

(** ** Bound *)
Definition appr_bound (mx : N) (s : state) : Prop :=
  usize_limit (c_max_appr (cfg s)) = mx /\
  (forall t m, tok_appr s !! t = Some m -> N.of_nat (size m) <= mx) /\
  (forall k m, col_appr s !! k = Some m -> N.of_nat (size m) <= mx).

Lemma size_sub (m m' : gmap acckey (account * approval)) : m' ⊆ m -> (size m' <= size m)%nat.
Proof. intros H. rewrite <- !size_dom. apply subseteq_size. apply subseteq_dom. exact H. Qed.

Lemma drop_expired_bound {K} `{Countable K} (now : N) (k : K) (sp : acckey) (M : gmap K appmap) mx :
  (forall (t : K) (m : appmap), M !! t = Some m -> N.of_nat (size m) <= mx) ->
  forall (t : K) (m : appmap), drop_expired now k sp M !! t = Some m -> N.of_nat (size m) <= mx.
Proof.
  intros B t m X. apply drop_expired_sub in X. destruct X as (m0 & X & Sub).
  specialize (B _ _ X). apply size_sub in Sub. lia.
Qed.

Lemma appr_bound_micro mx e o s s' : 1 <= mx -> appr_bound mx s -> micro e o s s' -> appr_bound mx s'.
Proof.
  intros Hmx (B1 & B2 & B3) H. unfold appr_bound.
  micro_cases H; try (splits; assumption).
  - splits; [assumption| |assumption]. intros t m. destruct (decide (ap_tid a = t)) as [E|Hne].
    + rewrite E, lookup_insert. intros [= <-].
      match goal with |- context [appmap_insert ?x ?y ?z] => pose proof (appmap_insert_size x y z) end.
      destruct (tok_appr s !! t) as [m|] eqn:Em; simpl in *.
      * rewrite E in *. match goal with X : forall m, _ -> _ < _ |- _ => specialize (X _ Em) end. lia.
      * rewrite map_size_empty in *. lia.
    + rewrite lookup_insert_ne by exact Hne. apply B2.
  - splits; [assumption|assumption|]. intros t m.
    match goal with |- <[?x := _]> _ !! _ = _ -> _ => destruct (decide (x = t)) as [E|Hne] end.
    + rewrite E, lookup_insert. intros [= <-].
      match goal with |- context [appmap_insert ?x ?y ?z] => pose proof (appmap_insert_size x y z) end.
      destruct (col_appr s !! t) as [m|] eqn:Em; simpl in *.
      * rewrite E in *. match goal with X : forall m, _ -> _ < _ |- _ => specialize (X _ Em) end. lia.
      * rewrite map_size_empty in *. lia.
    + rewrite lookup_insert_ne by exact Hne. apply B3.
  - splits; [assumption| |assumption]. intros t m'. destruct (decide (rv_tid a = t)) as [E|Hne].
    + rewrite E, lookup_insert. intros [= <-]. rewrite E in *.
      match goal with X : tok_appr s !! t = Some m |- _ => specialize (B2 _ _ X) end.
      assert (Sub : revoke_from (rv_spender a) m ⊆ m)
        by (unfold revoke_from; destruct (rv_spender a); [apply delete_subseteq|apply map_empty_subseteq]).
      apply size_sub in Sub. lia.
    + rewrite lookup_insert_ne by exact Hne. apply B2.
  - splits; [assumption|assumption|]. intros t m'.
    match goal with |- <[?x := _]> _ !! _ = _ -> _ => destruct (decide (x = t)) as [E|Hne] end.
    + rewrite E, lookup_insert. intros [= <-]. rewrite E in *.
      match goal with X : col_appr s !! t = Some m |- _ => specialize (B3 _ _ X) end.
      assert (Sub : revoke_from (rc_spender a) m ⊆ m)
        by (unfold revoke_from; destruct (rc_spender a); [apply delete_subseteq|apply map_empty_subseteq]).
      apply size_sub in Sub. lia.
    + rewrite lookup_insert_ne by exact Hne. apply B3.
  - splits; [assumption| |]; apply drop_expired_bound; assumption.
  - splits; [assumption| |]; intros t m X; apply lookup_delete_Some in X; destruct X as [_ X];
      (eapply drop_expired_bound; [|exact X]); assumption.
Qed.

Lemma run_appr_bound caller url_ok a s0 h :
  init caller url_ok a = Some s0 -> appr_bound (usize_limit (i_max_appr a)) (run h s0).
Proof.
  intros Hi. apply init_inv in Hi. destruct Hi as (_ & _ & _ & Hz & ->).
  apply run_inv.
  - intros e o s s' B H. eapply appr_bound_micro; eauto. apply usize_limit_pos. exact Hz.
  - split; [reflexivity|]. simpl. split; intros k m; rewrite lookup_empty; discriminate.
Qed.

(** ** Use of an approval *)
Lemma micro_unmentioned e o s s' t tok :
  wf s -> micro e o s s' -> ~ mentions t o -> tokens s !! t = Some tok ->
  tokens s' !! t = Some tok /\ tok_appr s' !! t = tok_appr s !! t.
Proof.
  intros W H Hn T.
  micro_cases H; try (split; [exact T|reflexivity]).
  - split; [|reflexivity]. rewrite lookup_insert_ne; [exact T|]. rewrite (wf_id _ W _ _ H1). intros E. apply Hn. eexists. eauto.
  - split; [exact T|]. rewrite lookup_insert_ne; [reflexivity|]. intros E. apply Hn. eexists. eauto.
  - split; [exact T|]. rewrite lookup_insert_ne; [reflexivity|]. intros E. apply Hn. eexists. eauto.
  - split; [exact T|]. apply drop_expired_other. intros E. apply Hn. eexists. eauto.
  - assert (tf_tid a <> t) as Hne by (intros E; apply Hn; eexists; eauto).
    split.
    + rewrite lookup_insert_ne; [exact T|]. rewrite (wf_id _ W _ _ H1). exact Hne.
    + rewrite lookup_delete_ne by exact Hne. apply drop_expired_other. exact Hne.
  - split; [|reflexivity]. rewrite mint_tokens_lookup. destruct (decide _) as [D|D]; [|exact T].
    pose proof (wf_lt _ W _ _ T). lia.
  - split; [|reflexivity]. rewrite lookup_delete_ne; [exact T|]. exact Hn.
Qed.

Lemma step_unmentioned e o s t tok :
  wf s -> ~ mentions t o -> tokens s !! t = Some tok ->
  tokens (fst (step e o s)) !! t = Some tok /\ tok_appr (fst (step e o s)) !! t = tok_appr s !! t.
Proof.
  intros W Hn. generalize (step_micros e o s). generalize (fst (step e o s)). intros s' H.
  induction H as [s|s s1 s2 Hm Hr IH]; intros T; [auto|].
  destruct (micro_unmentioned _ _ _ _ _ _ W Hm Hn T) as [T1 A1].
  rewrite <- A1. apply IH; [eapply wf_micro; eauto|exact T1].
Qed.

Lemma run_unmentioned h s t tok :
  wf s -> Forall (fun x => ~ mentions t (snd x)) h -> tokens s !! t = Some tok ->
  tokens (run h s) !! t = Some tok /\ tok_appr (run h s) !! t = tok_appr s !! t.
Proof.
  intros W F. revert s W. induction F as [|[e o] h Hx _ IH]; intros s W T; simpl; [auto|].
  destruct (step_unmentioned e o s t tok W Hx T) as [T1 A1]. rewrite <- A1. apply IH; [apply step_wf; exact W|exact T1].
Qed.

(** Outcomes of a transfer_from on an existing token, by what is stored. *)
Lemma transfer_from_outcome e a s s' r nft :
  step e (OTransferFrom [a]) s = (s', ABatch [r]) -> tokens s !! tf_tid a = Some nft ->
  limited r = true \/ r = Err ETooOld \/ (exists t, r = Err (ECreatedInFuture t)) \/
  (r = Err EInvalidRecipient /\ (akey (tf_from a) = akey (tf_to a) \/ akey (tf_to a) = akey (mkAcc anonymous None))) \/
  (r = Err EUnauthorized /\
     ~ (akey (t_owner nft) = akey (tf_from a) /\
        may_move s (tf_tid a) (t_owner nft) (mkAcc (e_caller e) (tf_spender_sub a)) (e_now e))) \/
  ((akey (t_owner nft) = akey (tf_from a) /\
        may_move s (tf_tid a) (t_owner nft) (mkAcc (e_caller e) (tf_spender_sub a)) (e_now e)) /\
   exists n x, match e_log e n x with LOk i => r = Ok i | _ => exists er, r = Err er end).
Proof.
  intros H T. apply step_transfer_from_single in H. unfold transfer_from in H.
  destruct (guard_sliding_window (e_now e) (tf_tid a) s) as [s1 pass] eqn:G.
  pose proof (guard_quiet _ _ _ _ _ G) as Q1.
  destruct pass; cbn [negb] in H; [|injection H as <- <-; left; reflexivity].
  destruct (verify_opt_timing s1 _ _); [|injection H as <- <-; eauto..].
  rewrite (quiet_tokens _ _ Q1), T in H.
  destruct (acc_eqb (tf_from a) (tf_to a)) eqn:E1.
  { injection H as <- <-. apply acc_eqb_true in E1. eauto 10. }
  destruct (acc_eqb (tf_to a) anonymous_account) eqn:E2.
  { injection H as <- <-. apply acc_eqb_true in E2. eauto 10. }
  rewrite check_token_approval_eq in H. rewrite check_collection_approval_eq in H.
  cbn [set_tok_appr tok_appr col_appr] in H.
  rewrite (quiet_tok_appr _ _ Q1), (quiet_col_appr _ _ Q1) in H.
  set (sp := mkAcc (e_caller e) (tf_spender_sub a)) in *.
  assert (MM : akey (t_owner nft) = akey (tf_from a) ->
     (may_move s (tf_tid a) (t_owner nft) sp (e_now e) <->
     acc_eqb sp (tf_from a) || has_valid (e_now e) (tok_appr s !! tf_tid a) (akey sp) ||
     has_valid (e_now e) (col_appr s !! akey (t_owner nft)) (akey sp) = true)).
  { intros Eo. unfold may_move, token_approved, collection_approved. rewrite !orb_true_iff, !has_valid_iff, acc_eqb_true, Eo. tauto. }
  destruct (acc_eqb (t_owner nft) (tf_from a)) eqn:Eo; cbn [negb orb] in H.
  2:{ injection H as <- <-. apply acc_eqb_false in Eo. right; right; right; right; left. split; [auto|]. tauto. }
  apply acc_eqb_true in Eo. specialize (MM Eo).
  destruct (acc_eqb sp (tf_from a) || has_valid (e_now e) (tok_appr s !! tf_tid a) (akey sp) ||
     has_valid (e_now e) (col_appr s !! akey (t_owner nft)) (akey sp)) eqn:B.
  - right; right; right; right; right. split; [tauto|].
    match type of H with (if ?b then _ else _) = _ => assert (b = false) as Bf end.
    { destruct (acc_eqb sp (tf_from a)), (has_valid _ (tok_appr s !! _) _), (has_valid _ (col_appr s !! _) _);
        simpl in *; congruence. }
    rewrite Bf in H.
    destruct (add_transaction e _ _) as [s2 ans] eqn:A.
    apply add_transaction_inv in A. destruct A as [Hans _].
    eexists _, _. rewrite <- Hans. destruct ans; injection H as <- <-; eauto.
  - right; right; right; right; left.
    match type of H with (if ?b then _ else _) = _ => assert (b = true) as Bf end.
    { destruct (acc_eqb sp (tf_from a)), (has_valid _ (tok_appr s !! _) _), (has_valid _ (col_appr s !! _) _);
        simpl in *; congruence. }
    rewrite Bf in H. injection H as <- <-. split; [auto|]. intros [_ M]. apply MM in M. congruence.
Qed.

Lemma approve_ok_effect e a s s' i :
  step e (OApproveTokens [a]) s = (s', ABatch [Ok i]) ->
  let from := mkAcc (e_caller e) (ai_from_sub (ap_info a)) in
  (exists ow, owner_of s (ap_tid a) = Some ow /\ akey ow = akey from) /\
  tokens s' = tokens s /\ col_appr s' = col_appr s /\
  (forall t sp, token_approval s' t sp =
     if decide (t = ap_tid a /\ akey sp = akey (ai_spender (ap_info a)))
     then Some (mkAppr (ai_spender (ap_info a)) from (ai_expires (ap_info a)) (e_now e) (ai_memo (ap_info a)))
     else token_approval s t sp).
Proof.
  simpl. unfold icrc37_approve_tokens. cbn [run_items].
  destruct (approve_token e s a) as [[s1 b]|] eqn:F; simpl; [|discriminate]. intros [= <- ->].
  destruct (approve_token_inv _ _ _ _ _ F) as [[Q [er X]]|(s2 & i' & ow & [= <-] & Q & O1 & O2 & _ & _ & _ & ->)];
    [discriminate|].
  open_quiet. simpl. split; [eauto|]. split; [auto|]. split; [auto|].
  intros t sp. unfold token_approval. simpl.
  destruct (decide (ap_tid a = t)) as [E|Hne].
  - rewrite E, lookup_insert. rewrite appmap_insert_lookup.
    destruct (decide (akey (ai_spender (ap_info a)) = akey sp)) as [Ek|Hk].
    + rewrite decide_True by auto. reflexivity.
    + rewrite decide_False by (intros [? ?]; congruence).
      destruct (tok_appr s !! t); [reflexivity|]. simpl. rewrite lookup_empty. reflexivity.
  - rewrite lookup_insert_ne by exact Hne. rewrite decide_False by (intros [? ?]; congruence). reflexivity.
Qed.

(** ** Expired approvals are dropped *)
Lemma drop_expired_at {K} `{Countable K} now (k : K) sp M m ka ap :
  drop_expired now k sp M !! k = Some m -> m !! sp = Some (ka, ap) -> unexpired now ap = true.
Proof.
  unfold drop_expired. destruct (M !! k) as [m0|] eqn:E; [|congruence].
  destruct (m0 !! sp) as [[k0 ap0]|] eqn:E2.
  - destruct (unexpired now ap0) eqn:U.
    + rewrite E. intros [= <-]. congruence.
    + rewrite lookup_insert. intros [= <-]. rewrite lookup_delete. discriminate.
  - rewrite E. intros [= <-]. congruence.
Qed.

Lemma unauthorized_drops e a s s' :
  step e (OTransferFrom [a]) s = (s', ABatch [Err EUnauthorized]) ->
  exists nft, tokens s !! tf_tid a = Some nft /\
    let sp := mkAcc (e_caller e) (tf_spender_sub a) in
    (forall ap, token_approval s' (tf_tid a) sp = Some ap -> unexpired (e_now e) ap = true) /\
    (forall ap, collection_approval s' (t_owner nft) sp = Some ap -> unexpired (e_now e) ap = true).
Proof.
  intros H. apply step_transfer_from_single in H. unfold transfer_from in H.
  destruct (guard_sliding_window (e_now e) (tf_tid a) s) as [s1 pass] eqn:G.
  pose proof (guard_quiet _ _ _ _ _ G) as Q1.
  destruct pass; cbn [negb] in H; [|discriminate].
  destruct (verify_opt_timing s1 _ _); [|discriminate..].
  rewrite (quiet_tokens _ _ Q1) in H. destruct (tokens s !! tf_tid a) as [nft|] eqn:T; [|discriminate].
  destruct (acc_eqb (tf_from a) (tf_to a)) eqn:E1; [discriminate|].
  destruct (acc_eqb (tf_to a) anonymous_account) eqn:E2; [discriminate|].
  rewrite check_token_approval_eq in H. rewrite check_collection_approval_eq in H.
  exists nft. split; [reflexivity|].
  match type of H with (if ?b then _ else _) = _ => destruct b eqn:B end.
  - injection H as <-. split; intros ap; unfold token_approval, collection_approval; simpl.
    + destruct (drop_expired _ (tf_tid a) _ _ !! _) as [m|] eqn:D; [|discriminate].
      destruct (m !! _) as [[ka ap']|] eqn:Em; [|discriminate]. simpl. intros [= <-]. eapply drop_expired_at; eauto.
    + destruct (drop_expired _ (akey (t_owner nft)) _ _ !! _) as [m|] eqn:D; [|discriminate].
      destruct (m !! _) as [[ka ap']|] eqn:Em; [|discriminate]. simpl. intros [= <-]. eapply drop_expired_at; eauto.
  - destruct (add_transaction e _ _) as [s2 ans]. destruct ans; try discriminate.
    unfold transfer_from_log_err in H. destruct (str_contains _ _); discriminate.
Qed.

(** ** Revocation *)
Lemma revoke_from_lookup sp m k :
  revoke_from sp m !! k =
    match sp with Some a => if decide (akey a = k) then None else m !! k | None => None end.
Proof.
  unfold revoke_from. destruct sp as [a|]; [|apply lookup_empty].
  destruct (decide (akey a = k)) as [<-|Hne]; [apply lookup_delete|apply lookup_delete_ne; exact Hne].
Qed.

Lemma revoke_ok_effect e a s s' i :
  step e (ORevokeTokens [a]) s = (s', ABatch [Ok i]) ->
  (forall t sp, token_approval s' t sp =
     if decide (t = rv_tid a /\ concerns (rv_spender a) sp)
     then None else token_approval s t sp) /\
  tokens s' = tokens s /\ col_appr s' = col_appr s.
Proof.
  intros H. apply step_revoke_single in H. destruct H as (s1 & Q & F).
  destruct (revoke_token_inv _ _ _ _ _ F) as [[Q2 [er X]]|(s2 & i' & ow & m & [= <-] & Q2 & O1 & O2 & T & _ & ->)];
    [discriminate|].
  open_quiet. simpl in *. split; [|auto].
  intros t sp. unfold token_approval. simpl.
  destruct (decide (rv_tid a = t)) as [<-|Hne].
  - rewrite lookup_insert, T, revoke_from_lookup. destruct (rv_spender a) as [x|].
    + destruct (decide (akey x = akey sp)); [rewrite decide_True by (simpl; auto)|rewrite decide_False by (simpl; tauto)]; reflexivity.
    + rewrite decide_True by (simpl; auto). reflexivity.
  - rewrite lookup_insert_ne by exact Hne. rewrite decide_False by (intros [? _]; congruence). reflexivity.
Qed.

Lemma revoke_coll_ok_effect e a s s' i :
  step e (ORevokeCollection [a]) s = (s', ABatch [Ok i]) ->
  (forall ow sp, collection_approval s' ow sp =
     if decide (akey ow = akey (mkAcc (e_caller e) None) /\
                concerns (rc_spender a) sp)
     then None else collection_approval s ow sp) /\
  tokens s' = tokens s /\ tok_appr s' = tok_appr s.
Proof.
  intros H. apply step_revoke_coll_single in H.
  destruct (revoke_collection_inv _ _ _ _ _ H) as [[Q2 [er X]]|(s2 & i' & m & [= <-] & Q2 & T & _ & ->)];
    [discriminate|].
  open_quiet. simpl in *. split; [|auto].
  intros ow sp. unfold collection_approval. simpl.
  match goal with |- context [<[?x := _]> _ !! _] => destruct (decide (x = akey ow)) as [E|Hne] end.
  - rewrite <- E, lookup_insert, T, revoke_from_lookup. destruct (rc_spender a) as [x|].
    + destruct (decide (akey x = akey sp)); [rewrite decide_True by (simpl; auto)|rewrite decide_False by (simpl; tauto)]; reflexivity.
    + rewrite decide_True by (simpl; auto). reflexivity.
  - rewrite lookup_insert_ne by exact Hne. rewrite decide_False by (intros [? _]; congruence). reflexivity.
Qed.

Lemma transfer_from_ok_approvals e a s s' i :
  step e (OTransferFrom [a]) s = (s', ABatch [Ok i]) ->
  (forall t sp, token_approval s' t sp = if decide (t = tf_tid a) then None else token_approval s t sp) /\
  (forall ow sp, collection_approval s' ow sp =
     if decide (akey ow = akey (tf_from a)) then None else collection_approval s ow sp).
Proof.
  intros H. apply step_transfer_from_single in H.
  destruct (transfer_from_inv _ _ _ _ _ H) as
      [[_ [er X]]|[(nft & s4 & er & X & _)|(nft & s4 & j & [= <-] & Q & T & _ & _ & _ & O & _ & ->)]]; try discriminate.
  open_quiet. unfold token_approval, collection_approval. simpl. rewrite <- O. split.
  - intros t sp. destruct (decide (tf_tid a = t)) as [<-|Hne].
    + rewrite lookup_delete, decide_True by auto. reflexivity.
    + rewrite lookup_delete_ne, drop_expired_other by exact Hne. rewrite decide_False by congruence. reflexivity.
  - intros ow sp. destruct (decide (akey (t_owner nft) = akey ow)) as [E|Hne].
    + rewrite <- E, lookup_delete, decide_True by auto. reflexivity.
    + rewrite lookup_delete_ne, drop_expired_other by exact Hne. rewrite decide_False by congruence. reflexivity.
Qed.
