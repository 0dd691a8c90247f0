(** C169: whoever loses a token has given it away. *)
From Verif Require Import Base ModelPrincipal ModelState ModelIcrc7 ModelIcrc37 ModelManagement ModelLifecycle
  ModelQueries ModelStep ProofsItems ProofsManage ProofsMicro ProofsCore ProofsOwner ProofsApprovals Spec Scenario
  PropertiesLedger PropertiesRefine PropertiesCover.
Local Open Scope N_scope.

(** The approval described by [i] is still good at time [now]. *)
Definition good_for (i : approval_info) (now : N) : Prop :=
  match ai_expires i with None => True | Some x => now < x end.

(** The message accepts an approval of [sp] for token [t], good at time [now], given by the account [w] that owns [t]. *)
Definition gives_token (s : state) (e : env) (o : op) (t : N) (w sp : account) (now : N) : Prop :=
  exists l rs j a i, o = OApproveTokens l /\ snd (step e o s) = ABatch rs /\ l !! j = Some a /\ rs !! j = Some (Ok i) /\
    ap_tid a = t /\ same (ai_spender (ap_info a)) sp /\ good_for (ap_info a) now /\
    owner_of s t = Some w /\ same w (mkAcc (e_caller e) (ai_from_sub (ap_info a))).
(** The message accepts an approval of [sp] for the collection of [w], good at time [now], given by the principal of [w]. *)
Definition gives_collection (s : state) (e : env) (o : op) (w sp : account) (now : N) : Prop :=
  exists l rs j a i, o = OApproveCollection l /\ snd (step e o s) = ABatch rs /\ l !! j = Some a /\ rs !! j = Some (Ok i) /\
    same (ai_spender a) sp /\ good_for a now /\ same w (mkAcc (e_caller e) (ai_from_sub a)) /\
    exists t w', owner_of s t = Some w' /\ acc_owner w' = e_caller e.

(** The message moves or burns token [t]. *)
Definition moves (s : state) (e : env) (o : op) (t : N) : Prop := owner_of (fst (step e o s)) t <> owner_of s t.

(** ** Proofs *)

(** What holds now and did not hold at the beginning was brought about by some message and has held ever since. *)
Lemma since (P : state -> Prop) (G : state -> env -> op -> Prop) :
  (forall s e o, P (fst (step e o s)) -> P s \/ G s e o) ->
  forall h s, ~ P s -> P (run h s) ->
  exists h1 e o h2, h = h1 ++ (e, o) :: h2 /\ G (run h1 s) e o /\
    forall h3 h4, h2 = h3 ++ h4 -> P (run (h1 ++ (e, o) :: h3) s).
Proof.
  intros S h. induction h as [|[e o] h IH] using rev_ind; intros s N H; [destruct (N H)|].
  rewrite run_app in H. cbn [run] in H. destruct (S _ _ _ H) as [Hp|Hg].
  - destruct (IH _ N Hp) as (h1 & e1 & o1 & h2 & -> & Q1 & Q2). exists h1, e1, o1, (h2 ++ [(e, o)]).
    split; [rewrite <- app_assoc; reflexivity|]. split; [exact Q1|]. intros h3 h4 E.
    destruct h4 as [|z h4 _] using rev_ind.
    + rewrite app_nil_r in E. subst h3. rewrite app_comm_cons, app_assoc, run_app. exact H.
    + rewrite app_assoc in E. apply app_inj_tail in E. destruct E as [E _]. exact (Q2 _ _ E).
  - exists h, e, o, []. split; [reflexivity|]. split; [exact Hg|]. intros h3 h4 E. symmetry in E. apply app_eq_nil in E.
    destruct E as [-> _]. rewrite run_app. exact H.
Qed.

(** *** The approvals of collections and where they come from *)
Lemma micro_col_shrink e o s s' k m' :
  micro e o s s' -> (forall l, o <> OApproveCollection l) -> col_appr s' !! k = Some m' ->
  exists m, col_appr s !! k = Some m /\ m' ⊆ m.
Proof.
  intros H Ho. micro_cases H; intros X; try (eexists; split; [exact X|reflexivity]).
  - destruct (Ho l eq_refl).
  - match type of X with <[?x := _]> _ !! _ = _ => destruct (decide (x = k)) as [E|Hne] end.
    + rewrite E in *. rewrite lookup_insert in X. injection X as <-. exists m. split; [assumption|].
      unfold revoke_from. destruct (rc_spender a); [apply delete_subseteq|apply map_empty_subseteq].
    + rewrite lookup_insert_ne in X by exact Hne. eauto.
  - eapply drop_expired_sub; eauto.
  - apply lookup_delete_Some in X. destruct X as [_ X]. eapply drop_expired_sub; eauto.
Qed.
Lemma step_col_shrink e o s k m' :
  (forall l, o <> OApproveCollection l) -> col_appr (fst (step e o s)) !! k = Some m' ->
  exists m, col_appr s !! k = Some m /\ m' ⊆ m.
Proof.
  intros Ho. generalize (step_micros e o s). generalize (fst (step e o s)). intros s' H.
  revert m'. induction H as [s|s s1 s2 Hm Hr IH]; intros m' X; [eauto|].
  destruct (IH _ X) as (m1 & E1 & S1). destruct (micro_col_shrink _ _ _ _ _ _ Hm Ho E1) as (m & E & S).
  exists m. split; [exact E|]. etransitivity; eauto.
Qed.

Definition col_source (e : env) (l : list approval_info) (rs : list (res N)) (s : state) (k0 k : acckey) (ap : approval) : Prop :=
  exists j a i, l !! j = Some a /\ rs !! j = Some (Ok i) /\ akey (ai_spender a) = k /\
    ap = mkAppr (ai_spender a) (mkAcc (e_caller e) (ai_from_sub a)) (ai_expires a) (e_now e) (ai_memo a) /\
    k0 = akey (mkAcc (e_caller e) (ai_from_sub a)) /\ has_nfts s (e_caller e) = true.

Lemma approve_coll_items_source e l s s' rs k0 k ka ap m :
  run_items (approve_collection e) s l = Some (s', rs) -> col_appr s' !! k0 = Some m -> m !! k = Some (ka, ap) ->
  (exists m0 ka0, col_appr s !! k0 = Some m0 /\ m0 !! k = Some (ka0, ap)) \/ col_source e l rs s k0 k ap.
Proof.
  revert s rs. induction l as [|a l IH]; intros s rs R Hm Hk; simpl in R.
  - injection R as <- <-. left. eauto.
  - destruct (approve_collection e s a) as [[s1 b]|] eqn:F; [|discriminate].
    destruct (run_items (approve_collection e) s1 l) as [[s2 bs']|] eqn:G; [|discriminate].
    injection R as <- <-.
    assert (Tk : has_nfts s1 (e_caller e) = has_nfts s (e_caller e)).
    { destruct (approve_collection_inv _ _ _ _ _ F) as [[Q _]|(s3 & i & _ & Q & _ & _ & _ & _ & ->)];
        open_quiet; reflexivity. }
    destruct (IH _ _ G Hm Hk) as [(m0 & ka0 & E1 & E2)|(j & a' & i & S1 & S2 & S3 & S4 & S5 & S6)].
    + destruct (approve_collection_inv _ _ _ _ _ F) as [[Q _]|(s3 & i & -> & Q & O1 & O2 & _ & _ & ->)].
      * open_quiet. left. eauto.
      * cbn [col_appr set_col_appr] in E1. destruct (decide (akey (mkAcc (e_caller e) (ai_from_sub a)) = k0)) as [Et|Hne].
        -- rewrite Et, lookup_insert in E1. injection E1 as <-.
           apply appmap_insert_entry in E2. destruct E2 as [[-> ->]|[Hne E2]].
           ++ right. exists 0%nat, a, i. split; [reflexivity|]. split; [reflexivity|]. split; [reflexivity|].
              split; [reflexivity|]. split; [symmetry; exact Et|exact O2].
           ++ left. destruct (col_appr s !! k0) as [m1|] eqn:E3; [|simpl in E2; rewrite lookup_empty in E2; discriminate].
              eauto.
        -- rewrite lookup_insert_ne in E1 by exact Hne. left; eauto.
    + right. exists (S j), a', i. rewrite Tk in S6. auto 10.
Qed.

Lemma step_col_source e o s k0 m k ka ap :
  col_appr (fst (step e o s)) !! k0 = Some m -> m !! k = Some (ka, ap) ->
  (exists m0 ka0, col_appr s !! k0 = Some m0 /\ m0 !! k = Some (ka0, ap)) \/
  (exists l rs, o = OApproveCollection l /\ snd (step e o s) = ABatch rs /\ col_source e l rs s k0 k ap).
Proof.
  intros Hm Hk.
  assert (D : (exists l, o = OApproveCollection l) \/ ~ (exists l, o = OApproveCollection l))
    by (destruct o; (left; eexists; reflexivity) || (right; intros [? ?]; discriminate)).
  destruct D as [[l ->]|Hn].
  2:{ left. destruct (step_col_shrink e o s k0 m) as (m0 & E & S); [intros l El; apply Hn; eauto|exact Hm|].
      exists m0, ka. split; [exact E|]. eapply lookup_weaken; eauto. }
  simpl in *. unfold icrc37_approve_collection in *. destruct (run_items _ _ _) as [[s' rs]|] eqn:R; simpl in *.
  - destruct (approve_coll_items_source _ _ _ _ _ _ _ _ _ _ R Hm Hk) as [X|X]; [left; exact X|right; eauto].
  - left. eauto.
Qed.

(** *** Approvals appear by being given *)
Lemma token_given t sp now s e o :
  token_approved (fst (step e o s)) t sp now -> token_approved s t sp now \/ exists w, gives_token s e o t w sp now.
Proof.
  intros (m & k & ap & E1 & E2 & E3).
  destruct (step_tok_source _ _ _ _ _ _ _ _ E1 E2) as [(m0 & ka0 & X1 & X2)|(l & rs & X1 & X2 & j & a & i & ow & S1 & S2 & S3 & S4 & S5 & S6 & S7)].
  - left. exists m0, ka0, ap. auto.
  - right. exists ow, l, rs, j, a, i. subst ap. cbn in E3, S7. unfold same, good_for. auto 12.
Qed.
Lemma collection_given ow sp now s e o :
  collection_approved (fst (step e o s)) ow sp now -> collection_approved s ow sp now \/ gives_collection s e o ow sp now.
Proof.
  intros (m & k & ap & E1 & E2 & E3).
  destruct (step_col_source _ _ _ _ _ _ _ _ E1 E2) as [(m0 & ka0 & X1 & X2)|(l & rs & X1 & X2 & j & a & i & S1 & S2 & S3 & S4 & S5 & S6)].
  - left. exists m0, ka0, ap. auto.
  - right. exists l, rs, j, a, i. subst ap. cbn in E3. apply owns_some in S6. unfold same, good_for. auto 12.
Qed.

(** *** Between the approval and its use *)
Lemma spend_clears e l s t :
  wf s -> moves s e (OTransferFrom l) t -> tok_appr (fst (step e (OTransferFrom l) s)) !! t = None.
Proof.
  intros W M. unfold moves in M. rewrite !owner_of_tokens in M.
  assert (X : wf (fst (step e (OTransferFrom l) s)) /\
    (tokens (fst (step e (OTransferFrom l) s)) !! t = tokens s !! t \/ tok_appr (fst (step e (OTransferFrom l) s)) !! t = None)).
  { apply (step_inv (fun x => wf x /\ (tokens x !! t = tokens s !! t \/ tok_appr x !! t = None))); [|auto].
    intros s1 s2 [W1 I] Hm. split; [eapply wf_micro; eauto|]. destruct I as [I|I].
    - destruct W1 as [W1 _ _]. revert I. remember (OTransferFrom l) as o. revert Heqo. micro_cases Hm; intros Eo I; try discriminate; auto.
      destruct (decide (tf_tid a = t)) as [Et|Hne].
      + right. rewrite Et. apply lookup_delete.
      + left. rewrite (W1 _ _ H1). rewrite lookup_insert_ne by exact Hne. exact I.
    - right. destruct (tok_appr s2 !! t) as [m2|] eqn:E2; [|reflexivity].
      destruct (micro_approvals_shrink _ _ _ _ _ _ Hm ltac:(discriminate) E2) as (m1 & E1 & _). congruence. }
  destruct X as [_ [X|X]]; [|exact X]. rewrite X in M. destruct (M eq_refl).
Qed.

Definition moving (o : op) : Prop := match o with OTransfer _ | OTransferFrom _ => True | _ => False end.
Lemma mover e o s t tk : wf s -> tokens s !! t = Some tk -> ~ moving o ->
  t < last_id (fst (step e o s)) /\ (tokens (fst (step e o s)) !! t = Some tk \/ tokens (fst (step e o s)) !! t = None).
Proof.
  intros W T Hn.
  assert (X : wf (fst (step e o s)) /\ t < last_id (fst (step e o s)) /\
    (tokens (fst (step e o s)) !! t = Some tk \/ tokens (fst (step e o s)) !! t = None)); [|tauto].
  apply (step_inv (fun x => wf x /\ t < last_id x /\ (tokens x !! t = Some tk \/ tokens x !! t = None))).
  - intros s1 s2 (W1 & L & I) Hm. split; [eapply wf_micro; eauto|]. revert L I.
    micro_cases Hm; intros L I; try (split; assumption); try (destruct (Hn Logic.I)).
    + split; [lia|]. rewrite mint_tokens_lookup. rewrite decide_False by lia. exact I.
    + split; [exact L|]. match goal with |- context [delete ?y _] => destruct (decide (y = t)) as [->|Hne] end; [right; apply lookup_delete|rewrite lookup_delete_ne by exact Hne; exact I].
  - split; [exact W|]. split; [eapply wf_lt; eauto|auto].
Qed.

Lemma acc_dec (a b : account) : {a = b} + {a <> b}.
Proof. destruct a as [p u], b as [q v]. destruct (decide (p = q)) as [->|]; [|right; congruence].
  destruct (decide (u = v)) as [->|]; [left; reflexivity|right; congruence]. Defined.
Lemma owner_dec (a b : option account) : {a = b} + {a <> b}.
Proof. destruct a as [a|], b as [b|]; try (right; congruence); [|left; reflexivity].
  destruct (acc_dec a b); [left|right]; congruence. Defined.

(** A token that is elsewhere now was handed on, and not by icrc37_transfer_from if the approval lasted. *)
Lemma handed_on h s t w ow :
  reachable s -> owner_of s t = Some w -> owner_of (run h s) t = Some ow ->
  (forall h3 e3 l3 h4, h = h3 ++ (e3, OTransferFrom l3) :: h4 -> ~ moves (run h3 s) e3 (OTransferFrom l3) t) ->
  ow = w \/ exists h3 e3 l3 h4 w3, h = h3 ++ (e3, OTransfer l3) :: h4 /\ owner_of (run h3 s) t = Some w3 /\
    acc_owner w3 = e_caller e3 /\ moves (run h3 s) e3 (OTransfer l3) t.
Proof.
  revert s w. induction h as [|[e o] h IH]; intros s w R O O' N; [left; cbn in O'; congruence|].
  cbn [run] in O'. assert (R1 : reachable (fst (step e o s))) by (apply reachable_step; exact R).
  destruct (owner_dec (owner_of (fst (step e o s)) t) (owner_of s t)) as [E|E].
  - destruct (IH _ w R1 ltac:(congruence) O') as [->|(h3 & e3 & l3 & h4 & w3 & -> & Q)].
    + intros h3 e3 l3 h4 ->. exact (N ((e, o) :: h3) e3 l3 h4 eq_refl).
    + left; reflexivity.
    + right. exists ((e, o) :: h3), e3, l3, h4, w3. split; [reflexivity|exact Q].
  - assert (D : (exists l, o = OTransfer l) \/ (exists l, o = OTransferFrom l) \/ ~ moving o) by (destruct o; cbn; eauto).
    destruct D as [[l ->]|[[l ->]|D]].
    + right. exists [], e, l, h, w. split; [reflexivity|]. split; [exact O|]. split; [|exact E].
        destruct (C04_only_entitled_move e (OTransfer l) s t w R O) as [X|(? & ? & X & _)]; [cbn [run] in *; congruence|exact X|discriminate].
    + destruct (N [] e l h eq_refl E).
    + exfalso. pose proof O as T. rewrite owner_of_tokens in T. destruct (tokens s !! t) as [tk|] eqn:Et; [|discriminate].
      destruct (mover e o s t tk (reachable_wf _ R) Et D) as [L [X|X]].
      * apply E. rewrite !owner_of_tokens, X, Et. reflexivity.
      * destruct (C164_gone h _ t R1) as [Y _]; [rewrite owner_of_tokens, X; reflexivity|exact L|congruence].
Qed.

(** ** The claim *)

(** False as stated: the approval may stem from a former owner, who then handed the token on by icrc7_transfer. Here bob takes
    token 1 from carol, who has never called the ledger. *)
Theorem C169_own_doing_refuted :
  exists h e o t, let s := run h demo0 in
    owner_of s t = Some (acct carol) /\ owner_of (fst (step e o s)) t = Some (acct bob) /\ e_caller e = bob /\
    Forall (fun c => bool_decide (e_caller (fst c) = carol) = false) h.
Proof.
  exists (demo2_h ++ [(from_ alice 3000000000, OTransfer [xfer carol 1])]), (from_ bob 4000000000), (OTransferFrom [tfrom carol bob 1]), 1.
  split; [vm_compute; reflexivity|]. split; [vm_compute; reflexivity|]. split; [reflexivity|].
  repeat constructor.
Qed.

(** What is true: a token leaves an account by a call of its principal, or else by a spender whom some earlier call approved,
    for a time not yet over: for the collection of this account, by its principal, who held a token then; or for the
    token, by the account that held it then. In the second case no icrc37_transfer_from has moved the token since, and
    either the account is still the same or its holders have handed the token on by icrc7_transfer.
    Missing: that the account itself approved. *)
Theorem C169_own_doing_partial caller url_ok a0 s0 h e o t ow :
  init caller url_ok a0 = Some s0 ->
  let s := run h s0 in
  owner_of s t = Some ow -> owner_of (fst (step e o s)) t <> Some ow ->
  acc_owner ow = e_caller e \/
  exists l a, o = OTransferFrom l /\ a ∈ l /\ tf_tid a = t /\
    let sp := mkAcc (e_caller e) (tf_spender_sub a) in
    exists h1 e1 o1 h2, h = h1 ++ (e1, o1) :: h2 /\
      (gives_collection (run h1 s0) e1 o1 ow sp (e_now e) \/
       exists w, gives_token (run h1 s0) e1 o1 t w sp (e_now e) /\
         (forall h3 e3 l3 h4, h2 = h3 ++ (e3, OTransferFrom l3) :: h4 ->
            ~ moves (run (h1 ++ (e1, o1) :: h3) s0) e3 (OTransferFrom l3) t) /\
         (ow = w \/
          exists h3 e3 l3 h4 w3, h2 = h3 ++ (e3, OTransfer l3) :: h4 /\
            owner_of (run (h1 ++ (e1, o1) :: h3) s0) t = Some w3 /\ acc_owner w3 = e_caller e3 /\
            moves (run (h1 ++ (e1, o1) :: h3) s0) e3 (OTransfer l3) t)).
Proof.
  intros Hi s O O'.
  assert (Re : forall x, reachable (run x s0)) by (intros x; exists caller, url_ok, a0, s0, x; auto).
  destruct (C04_only_entitled_move e o s t ow (Re h) O O') as [X|(l & a & El & Ea & Et & X)]; [left; exact X|].
  right. exists l, a. split; [exact El|]. split; [exact Ea|]. split; [exact Et|]. cbn zeta.
  set (sp := mkAcc (e_caller e) (tf_spender_sub a)) in *.
  assert (I0 : tok_appr s0 = ∅ /\ col_appr s0 = ∅).
  { apply init_inv in Hi. destruct Hi as (_ & _ & _ & _ & ->). auto. }
  destruct I0 as [I1 I2]. destruct X as [X|X].
  - destruct (since (fun x => token_approved x t sp (e_now e)) (fun x e4 o4 => exists w, gives_token x e4 o4 t w sp (e_now e))
      ltac:(intros ? ? ?; apply token_given) h s0) as (h1 & e1 & o1 & h2 & Eh & (w & G) & K);
      [intros (m & k & ap & Y & _); rewrite I1, lookup_empty in Y; discriminate|exact X|].
    exists h1, e1, o1, h2. split; [exact Eh|]. right. exists w. split; [exact G|].
    assert (N : forall h3 e3 l3 h4, h2 = h3 ++ (e3, OTransferFrom l3) :: h4 ->
            ~ moves (run (h1 ++ (e1, o1) :: h3) s0) e3 (OTransferFrom l3) t).
    { intros h3 e3 l3 h4 E M. specialize (K (h3 ++ [(e3, OTransferFrom l3)]) h4).
      assert (E' : h2 = (h3 ++ [(e3, OTransferFrom l3)]) ++ h4) by (rewrite <- app_assoc; exact E). specialize (K E').
      destruct K as (m & k & ap & Y & _).
      rewrite app_comm_cons, app_assoc, run_app in Y. cbn [run] in Y.
      rewrite (spend_clears _ _ _ _ (reachable_wf _ (Re _)) M) in Y. discriminate. }
    split; [exact N|].
    assert (Rn : forall x, run (h1 ++ (e1, o1) :: x) s0 = run x (fst (step e1 o1 (run h1 s0)))) by (intros x; rewrite run_app; reflexivity).
    destruct (handed_on h2 (fst (step e1 o1 (run h1 s0))) t w ow) as [Y|(h3 & e3 & l3 & h4 & w3 & Y1 & Y2 & Y3 & Y4)].
    + specialize (Re (h1 ++ [(e1, o1)])). rewrite run_app in Re. exact Re.
    + destruct G as (l' & rs & j & a' & i & -> & G1 & G2 & G3 & G4 & G5 & G6 & G7 & G8).
      rewrite <- G7. rewrite <- !owners_lookup. f_equal.
      apply (step_rel (fun _ => True) (fun x y => owners y = owners x)); auto; [intros; congruence|].
      intros x y _ Hm. split; [exact Logic.I|]. eapply micro_owner_same; [exact Hm|exact Logic.I].
    + rewrite <- Rn, <- Eh. exact O.
    + intros h3 e3 l3 h4 E M. rewrite <- Rn in M. exact (N _ _ _ _ E M).
    + left. exact Y.
    + right. exists h3, e3, l3, h4, w3. rewrite Rn. auto.
  - destruct (since (fun x => collection_approved x ow sp (e_now e)) (fun x e4 o4 => gives_collection x e4 o4 ow sp (e_now e))
      ltac:(intros ? ? ?; apply collection_given) h s0) as (h1 & e1 & o1 & h2 & Eh & G & K);
      [intros (m & k & ap & Y & _); rewrite I2, lookup_empty in Y; discriminate|exact X|].
    exists h1, e1, o1, h2. split; [exact Eh|]. left. exact G.
Qed.

(** bob, approved for token 1 by alice, takes it from alice; after alice has handed it on to carol, from carol; and carol, approved
    for alice's collection, takes token 2. *)
Example C169_example :
  init admin (fun _ => true) demo_args = Some demo0 /\
  (let s := run demo2_h demo0 in
   owner_of s 1 = Some (acct alice) /\ owner_of (fst (step (from_ bob 3000000000) (OTransferFrom [tfrom alice bob 1]) s)) 1 = Some (acct bob) /\
   owner_of s 2 = Some (acct alice) /\ owner_of (fst (step (from_ carol 3000000000) (OTransferFrom [tfrom alice carol 2]) s)) 2 = Some (acct carol)) /\
  (let s := run (demo2_h ++ [(from_ alice 3000000000, OTransfer [xfer carol 1])]) demo0 in
   owner_of s 1 = Some (acct carol) /\
   owner_of (fst (step (from_ bob 4000000000) (OTransferFrom [tfrom carol bob 1]) s)) 1 = Some (acct bob)).
Proof.
  split; [apply demo0_init|]. split; [split; [vm_compute; reflexivity|]; split; [vm_compute; reflexivity|]; split; vm_compute; reflexivity|].
  split; vm_compute; reflexivity.
Qed.

Print Assumptions C169_own_doing_refuted.
Print Assumptions C169_own_doing_partial.
