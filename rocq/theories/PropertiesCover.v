(** C165: a collection approval covers every token of the account, now and later. *)
From Verif Require Import Base ModelPrincipal ModelState ModelIcrc7 ModelIcrc37 ModelManagement ModelLifecycle
  ModelQueries ModelStep ProofsItems ProofsManage ProofsMicro ProofsCore ProofsOwner ProofsApprovals Spec Scenario
  PropertiesForce PropertiesRefine.
Local Open Scope N_scope.

(** Nothing in [h] touches the approvals that the account [from] gave for its collection: its principal gives and revokes none,
    nobody moves a token out of it by icrc37_transfer_from, and nothing is later than [now]. *)
Definition untouched (from : account) (now : N) (h : history) : Prop :=
  forall e o, (e, o) ∈ h ->
    e_now e <= now /\
    (forall l, o = OApproveCollection l \/ (exists l', o = ORevokeCollection l') -> e_caller e <> acc_owner from) /\
    (forall l a, o = OTransferFrom l -> a ∈ l -> akey (tf_from a) <> akey from).

Lemma akey_principal p q sub sub' : akey (mkAcc p sub) = akey (mkAcc q sub') -> p = q.
Proof. unfold akey. cbn. congruence. Qed.

(** The machine does not tell apart the two ways of writing an account. *)
Definition proper (m : machine) : Prop :=
  forall w w' x x', akey w = akey w' -> akey x = akey x' -> x_col m w x = x_col m w' x'.
Lemma proper_put ow sp u m : proper m -> proper (put_col ow sp u m).
Proof.
  intros P w w' x x' E F. cbn. rewrite E. assert (is_spender sp x = is_spender sp x') as -> by (destruct sp; cbn; [rewrite F|]; reflexivity).
  rewrite (P w w' x x' E F). reflexivity.
Qed.
Lemma proper_rule p now o m m' : rule p now o m m' -> proper m -> proper m'.
Proof. intros R P. destruct R; try exact P; try (apply proper_put; exact P). Qed.
Lemma proper_seen s : proper (seen_as s).
Proof. intros w w' x x' E F. cbn. unfold collection_approval. rewrite E, F. reflexivity. Qed.
Lemma proper_eqm m m' : eqm m m' -> proper m -> proper m'.
Proof. intros (_ & _ & E & _) P w w' x x' A B. rewrite <- !E. apply P; assumption. Qed.

Lemma rules_keep e o from sp u now m m' :
  match u with Some x => now < x | None => True end -> untouched from now [(e, o)] ->
  rules (e_caller e) (e_now e) o m m' -> proper m -> x_col m from sp = Some u -> x_col m' from sp = Some u.
Proof.
  intros X U R. destruct (U e o ltac:(left)) as (Tm & NC & NT). clear U.
  induction R as [m m' (_ & _ & E & _)|m m1 m2 m' R Q _ IH]; intros Pr H; [rewrite <- E; exact H|].
  apply IH; [eapply proper_eqm; [exact Q|]; eapply proper_rule; eauto|].
  destruct Q as (_ & _ & E & _). rewrite <- E. clear IH E.
  destruct R as [o m|l a ow m A O P Pa An Ne|l a ow m A O S Ne An V|l a m A O|l a ow m A O V|l a ow m A O S An|l i t ow m A O S An
    |l a ow m A O S|l a m A|l m P|t ow m O P|q r m P|q r m P]; cbn; try exact H.
  - specialize (NT l a eq_refl A). rewrite bool_decide_eq_false_2 by congruence. exact H.
  - case_bool_decide as D; [|exact H]. cbn. case_bool_decide as D'; [|exact H]. exfalso.
    rewrite <- (Pr _ _ _ _ D D'), H in V. cbn in V. destruct u as [x|]; [lia|exact V].
  - destruct from as [p s0]. assert (e_caller e <> p) by (apply (NC l); auto).
    rewrite bool_decide_eq_false_2; [exact H|]. intros Z. apply akey_principal in Z. congruence.
  - destruct from as [p s0]. assert (e_caller e <> p) by (apply (NC []); eauto).
    rewrite bool_decide_eq_false_2; [exact H|]. intros Z. apply akey_principal in Z. congruence.
Qed.

Lemma reachable_step e o s : reachable s -> reachable (fst (step e o s)).
Proof.
  intros (c & u & a & s0 & h & I & ->). exists c, u, a, s0, (h ++ [(e, o)]). split; [exact I|]. rewrite run_app. reflexivity.
Qed.

Lemma run_keep h from sp u now s :
  match u with Some x => now < x | None => True end -> reachable s -> untouched from now h ->
  x_col (seen_as s) from sp = Some u -> x_col (seen_as (run h s)) from sp = Some u.
Proof.
  intros X. revert s. induction h as [|[e o] h IH]; intros s Re U H; [exact H|].
  apply (IH (fst (step e o s))); [apply reachable_step, Re| |].
  - intros e' o' I. apply U. right. exact I.
  - eapply rules_keep; [exact X| |apply C164_step, Re|apply proper_seen|exact H].
    intros e' o' I. apply U. apply elem_of_list_singleton in I. rewrite I. left.
Qed.

Lemma approve_all_effect e i s s' k :
  step e (OApproveCollection [i]) s = (s', ABatch [Ok k]) ->
  has_nfts s (e_caller e) = true /\
  x_col (seen_as s') (mkAcc (e_caller e) (ai_from_sub i)) (ai_spender i) = Some (ai_expires i).
Proof.
  cbn [step]. unfold icrc37_approve_collection. cbn [run_items].
  destruct (approve_collection e s i) as [[s1 b]|] eqn:F; cbn; [|discriminate]. intros [= <- ->].
  destruct (approve_collection_inv _ _ _ _ _ F) as [[_ [er X]]|(s2 & j & _ & Q & _ & HN & _ & _ & ->)]; [discriminate|].
  split; [exact HN|]. unfold collection_approval. cbn. rewrite lookup_insert.
  destruct (insert_lookup (ai_spender i) (new_approval i (mkAcc (e_caller e) (ai_from_sub i)) (e_now e))
    (default ∅ (col_appr s !! akey (mkAcc (e_caller e) (ai_from_sub i)))) (akey (ai_spender i))) as [y L].
  rewrite decide_True in L by reflexivity. change (akey (mkAcc (e_caller e) (ai_from_sub i))) with (akey (mkAcc (e_caller e) (ai_from_sub i))) in L.
  unfold akey in *. cbn in *. rewrite L. reflexivity.
Qed.

(** ** The claim *)

(** After an accepted approval for a collection and any history that leaves the approvals of the account alone, the spender can
    move whatever token the account holds by then, also one it did not hold when it approved: the transfer is carried out if the
    log accepts it, unless it is refused by the rate limiter, for its creation time or for its recipient. *)
Theorem C165_covers_partial e i s s1 k h e2 b ow s3 r :
  let from := mkAcc (e_caller e) (ai_from_sub i) in
  reachable s -> step e (OApproveCollection [i]) s = (s1, ABatch [Ok k]) -> untouched from (e_now e2) h ->
  match ai_expires i with Some x => e_now e2 < x | None => True end ->
  e_caller e2 = acc_owner (ai_spender i) -> tf_spender_sub b = acc_sub (ai_spender i) -> tf_from b = from ->
  owner_of (run h s1) (tf_tid b) = Some ow -> akey ow = akey from ->
  step e2 (OTransferFrom [b]) (run h s1) = (s3, ABatch [r]) ->
  limited r = true \/ r = Err ETooOld \/ (exists t, r = Err (ECreatedInFuture t)) \/
  (r = Err EInvalidRecipient /\ (akey (tf_from b) = akey (tf_to b) \/ akey (tf_to b) = akey (mkAcc anonymous None))) \/
  exists n x, match e_log e2 n x with
              | LOk j => r = Ok j /\ owner_of s3 (tf_tid b) = Some (tf_to b)
              | _ => exists er, r = Err er
              end.
Proof.
  intros from Re Ha U X Hc Hsub Hf Ho Hk Hs.
  destruct (approve_all_effect _ _ _ _ _ Ha) as [_ A].
  assert (R1 : reachable s1). { pose proof (reachable_step e (OApproveCollection [i]) s Re) as R. rewrite Ha in R. exact R. }
  pose proof (run_keep h from (ai_spender i) _ (e_now e2) s1 X R1 U A) as A2.
  assert (W2 : wf (run h s1)) by (apply run_wf, reachable_wf, R1).
  unfold owner_of in Ho. destruct (tokens (run h s1) !! tf_tid b) as [nft|] eqn:T; [|discriminate]. injection Ho as <-.
  destruct (transfer_from_outcome _ _ _ _ _ nft Hs T) as [O|[O|[O|[O|[[O NM]|[_ O]]]]]]; auto 6.
  - exfalso. apply NM. split; [rewrite Hf; exact Hk|]. right; right. unfold collection_approved. rewrite Hk, Hc, Hsub.
    cbn in A2. unfold collection_approval in A2. destruct (col_appr (run h s1) !! akey from) as [m|] eqn:E; [|discriminate].
    destruct (ai_spender i) as [p q]. cbn. destruct (m !! akey (mkAcc p q)) as [[y ap]|] eqn:F; [|discriminate].
    injection A2 as A2. exists m, y, ap. split; [reflexivity|]. split; [exact F|]. rewrite A2. exact X.
  - right; right; right; right. destruct O as (n & x & O). exists n, x. destruct (e_log e2 n x); try exact O.
    split; [exact O|]. subst r. destruct (transfer_from_ok_effect _ _ _ _ _ W2 Hs) as (ow' & _ & _ & E & _).
    rewrite <- owners_lookup, E, lookup_insert. reflexivity.
Qed.

(** Only a principal that holds some token, under whatever subaccount, can approve for a collection, and only those that hold none
    are refused for that reason. *)
Theorem C165_holding_partial e i s s' r :
  step e (OApproveCollection [i]) s = (s', ABatch [r]) ->
  ((exists k, r = Ok k) -> exists t ow, owner_of s t = Some ow /\ acc_owner ow = e_caller e) /\
  (r = Err (EGeneric 1 "Caller must own at least one NFT to approve collection") ->
   forall t ow, owner_of s t = Some ow -> acc_owner ow <> e_caller e).
Proof.
  intros H. split.
  - intros [k ->]. destruct (approve_all_effect _ _ _ _ _ H) as [N _]. apply owns_some, N.
  - intros -> t ow O P. exfalso. revert H. cbn [step]. unfold icrc37_approve_collection. cbn [run_items].
    destruct (approve_collection e s i) as [[s1 b]|] eqn:F; cbn; [|discriminate]. intros [= <- ->].
    assert (N : has_nfts s (e_caller e) = true).
    { unfold has_nfts. apply existsb_exists. unfold owner_of in O. destruct (tokens s !! t) as [nft|] eqn:T; [|discriminate].
      injection O as <-. exists (t, nft). split; [apply elem_of_list_In, elem_of_map_to_list, T|]. cbn. apply bool_decide_eq_true, P. }
    unfold approve_collection in F. destruct (guard_sliding_window (e_now e) 0 s) as [sg pass] eqn:G.
    pose proof (guard_quiet _ _ _ _ _ G) as Q.
    assert (EN : has_nfts sg (e_caller e) = true) by (unfold has_nfts in *; rewrite (quiet_tokens _ _ Q); exact N).
    destruct pass; cbn [negb] in F; [|injection F as _ F; discriminate F].
    destruct (verify_approval_timing _ _ _); try (injection F as _ F; discriminate F).
    destruct (acc_eqb _ _); [injection F as _ F; discriminate F|]. rewrite EN in F. cbn [negb] in F.
    match type of F with (if ?b then _ else _) = _ => destruct b end; [injection F as _ F; discriminate F|].
    destruct (add_transaction _ _ _) as [s2 ans]. destruct ans; injection F as _ F; discriminate F.
Qed.

(** The ICRC-37 standard lets an account approve for its collection before it holds a token; here carol cannot, although nothing else
    is wrong: after alice has sent a token the same call is accepted. *)
Theorem C165_first_refuted :
  let s := demo1 in let e := from_ carol 1000000000 in let o := OApproveCollection [info bob 1000000000 None] in
  reachable s /\
  snd (step e o s) = ABatch [Err (EGeneric 1 "Caller must own at least one NFT to approve collection")] /\
  snd (step (from_ carol 1000000000) o (fst (step (from_ alice 500000000) (OTransfer [xfer carol 1]) s))) = ABatch [Ok 4].
Proof. split; [exact (demo_reachable demo1_h)|]. split; vm_compute; reflexivity. Qed.

(** Not every token of the account: the first one that is moved uses the approval up. *)
Theorem C165_used_up_refuted :
  reachable demo2 /\ collection_approved demo2 (acct alice) (acct carol) (t0 + 3000000000) /\
  owner_of demo2 1 = Some (acct alice) /\ owner_of demo2 2 = Some (acct alice) /\
  snd (step (from_ carol 3000000000) (OTransferFrom [tfrom alice carol 1; tfrom alice carol 2]) demo2) =
    ABatch [Ok 5; Err EUnauthorized].
Proof.
  split; [exact (demo_reachable demo2_h)|]. split; [|split; [|split]]; try (vm_compute; reflexivity).
  eexists _, _, _. split; [vm_compute; reflexivity|]. split; vm_compute; reflexivity.
Qed.

(** ** Examples *)

(** bob approves carol for all tokens, sends the only one away, and is sent token 2 by alice: carol can move that one. *)
Definition later_h : history :=
  [(from_ bob 3000000000, OTransfer [xfer alice 3]); (from_ admin 4000000000, OUpgrade);
   (from_ alice 5000000000, OTransfer [xfer bob 2]); (from_ bob 6000000000, OApproveTokens [appr 2 alice 6000000000 None])].
Example C165_example :
  let e := from_ bob 2500000000 in let i := info carol 2500000000 (Some (t0 + 9000000000)) in
  let s1 := fst (step e (OApproveCollection [i]) demo2) in
  let e2 := from_ carol 8000000000 in let b := tfrom bob carol 2 in
  reachable demo2 /\ snd (step e (OApproveCollection [i]) demo2) = ABatch [Ok 5] /\
  untouched (acct bob) (e_now e2) later_h /\ owner_of demo2 2 = Some (acct alice) /\
  owner_of (run (take 1 later_h) s1) 3 = Some (acct alice) /\ owner_of (run later_h s1) 2 = Some (acct bob) /\
  snd (step e2 (OTransferFrom [b]) (run later_h s1)) = ABatch [Ok 9] /\
  owner_of (fst (step e2 (OTransferFrom [b]) (run later_h s1))) 2 = Some (acct carol).
Proof.
  intros e i s1 e2 b. split; [exact (demo_reachable demo2_h)|]. split; [vm_compute; reflexivity|]. split.
  { intros e' o I. unfold later_h in I. repeat (apply elem_of_cons in I as [I|I]; [injection I as -> ->|]); [..|apply elem_of_nil in I; destruct I].
    all: split; [vm_compute; discriminate|]; split; [intros l [X|[l' X]]; discriminate|intros l a X; discriminate]. }
  split; [|split; [|split; [|split]]]; vm_compute; reflexivity.
Qed.

Print Assumptions C165_covers_partial.
Print Assumptions C165_holding_partial.
Print Assumptions C165_first_refuted.
Print Assumptions C165_used_up_refuted.
