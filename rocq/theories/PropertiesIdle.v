(** C161: who makes no call keeps the tokens. *)
From Verif Require Import Base ModelPrincipal ModelState ModelIcrc7 ModelIcrc37 ModelManagement ModelLifecycle
  ModelQueries ModelStep ProofsItems ProofsManage ProofsMicro ProofsCore Spec Scenario PropertiesLedger PropertiesApprovals.

(** Somebody who neither owns the account nor is approved for the token or for the collection of the account. *)
Definition outsider (p : principal) (s : state) (t : N) (ow : account) (now : N) : Prop :=
  p <> acc_owner ow /\
  forall sub, ~ token_approved s t (mkAcc p sub) now /\ ~ collection_approved s ow (mkAcc p sub) now.

Local Instance account_dec : EqDecision account.
Proof. solve_decision. Defined.
Local Instance approval_dec : EqDecision approval.
Proof. solve_decision. Defined.

Lemma approved_token s t sp now :
  token_approved s t sp now <-> exists ap, token_approval s t sp = Some ap /\ match a_expires ap with None => True | Some x => now < x end.
Proof.
  unfold token_approved, approved_in, token_approval. split.
  - intros (m & k & ap & -> & E & X). rewrite E. cbn. eauto.
  - intros (ap & E & X). destruct (tok_appr s !! t) as [m|]; [|discriminate]. destruct (m !! akey sp) as [[k y]|] eqn:F; [|discriminate].
    injection E as ->. exists m, k, ap. auto.
Qed.
Lemma approved_collection s ow sp now :
  collection_approved s ow sp now <->
  exists ap, collection_approval s ow sp = Some ap /\ match a_expires ap with None => True | Some x => now < x end.
Proof.
  unfold collection_approved, approved_in, collection_approval. split.
  - intros (m & k & ap & -> & E & X). rewrite E. cbn. eauto.
  - intros (ap & E & X). destruct (col_appr s !! akey ow) as [m|]; [|discriminate].
    destruct (m !! akey sp) as [[k y]|] eqn:F; [|discriminate]. injection E as ->. exists m, k, ap. auto.
Qed.

Lemma akey_owner a p sub : akey a = akey (mkAcc p sub) -> acc_owner a = p.
Proof. intros E. apply (f_equal fst) in E. exact E. Qed.

(** A call of somebody else adds no approval. *)
Lemma others_add_none e o s t ow : owner_of s t = Some ow -> e_caller e <> acc_owner ow ->
  forall sp ap, token_approval (fst (step e o s)) t sp = Some ap -> token_approval s t sp = Some ap.
Proof.
  intros O N sp ap H. destruct (decide (token_approval (fst (step e o s)) t sp = token_approval s t sp)) as [E|E]; [congruence|].
  apply C20_only_owner_approves in E as [(l & a & ow' & -> & _ & _ & O' & K)|[(l & a & ow' & -> & _ & _ & O' & K)|(l & a & -> & _)]].
  - rewrite O in O'. injection O' as <-. apply akey_owner in K. congruence.
  - rewrite O in O'. injection O' as <-. apply akey_owner in K. congruence.
  - apply (proj1 (C20_transfer_from_adds_none e l s t sp ap) H).
Qed.
Lemma others_add_none_collection e o s ow : e_caller e <> acc_owner ow ->
  forall sp ap, collection_approval (fst (step e o s)) ow sp = Some ap -> collection_approval s ow sp = Some ap.
Proof.
  intros N sp ap H. destruct (decide (collection_approval (fst (step e o s)) ow sp = collection_approval s ow sp)) as [E|E]; [congruence|].
  apply C20_only_owner_approves_collection in E as [(l & a & -> & _ & K)|[(l & a & -> & _ & K)|(l & a & -> & _)]].
  - apply akey_owner in K. congruence.
  - apply akey_owner in K. congruence.
  - apply (proj2 (C20_transfer_from_adds_none e l s 0 sp ap) ow H).
Qed.

Lemma keeps_wf h s t ow :
  wf s -> reachable s -> owner_of s t = Some ow ->
  (forall e o, (e, o) ∈ h -> outsider (e_caller e) s t ow (e_now e)) ->
  owner_of (run h s) t = Some ow /\
  (forall sp ap, token_approval (run h s) t sp = Some ap -> token_approval s t sp = Some ap) /\
  (forall sp ap, collection_approval (run h s) ow sp = Some ap -> collection_approval s ow sp = Some ap).
Proof.
  intros _. revert s. induction h as [|[e o] h IH]; intros s Re O H; [split; [exact O|auto]|]. cbn [run].
  destruct (H e o) as [N A]; [left|].
  assert (Re' : reachable (fst (step e o s))).
  { destruct Re as (c & u & a & s0 & h0 & I & ->). exists c, u, a, s0, (h0 ++ [(e, o)]). split; [exact I|].
    clear. revert s0. induction h0 as [|[e' o'] h0 IH]; intros s0; [reflexivity|]. cbn [run app]. apply IH. }
  assert (O' : owner_of (fst (step e o s)) t = Some ow).
  { destruct (decide (owner_of (fst (step e o s)) t = Some ow)) as [E|E]; [exact E|]. exfalso.
    destruct (C04_only_entitled_move e o s t ow Re O E) as [X|(l & a & _ & _ & _ & [X|X])]; [congruence| |];
      apply (A (tf_spender_sub a)) in X; exact X. }
  pose proof (others_add_none e o s t ow O N) as T. pose proof (others_add_none_collection e o s ow N) as C.
  destruct (IH (fst (step e o s)) Re' O') as (R1 & R2 & R3).
  - intros e' o' I. destruct (H e' o') as [N' A']; [right; exact I|]. split; [exact N'|]. intros sub. destruct (A' sub) as [A1 A2].
    split; intros X; [apply A1|apply A2].
    + apply approved_token in X as (ap & X1 & X2). apply approved_token. eauto.
    + apply approved_collection in X as (ap & X1 & X2). apply approved_collection. eauto.
  - split; [exact R1|]. split; eauto.
Qed.

(** Whatever all the others do together - administrators, former owners, anybody - as long as neither the owner nor anybody with an
    approval makes a call, the token stays and no approval is added. *)
Theorem C161_keeps h s t ow :
  reachable s -> owner_of s t = Some ow ->
  (forall e o, (e, o) ∈ h -> outsider (e_caller e) s t ow (e_now e)) ->
  owner_of (run h s) t = Some ow /\
  (forall sp ap, token_approval (run h s) t sp = Some ap -> token_approval s t sp = Some ap) /\
  (forall sp ap, collection_approval (run h s) ow sp = Some ap -> collection_approval s ow sp = Some ap).
Proof. intros Re. apply keeps_wf; [apply reachable_wf|]; exact Re. Qed.
Print Assumptions C161_keeps.

(** Before a token is minted nobody is approved for it. *)
Lemma unminted_step e o s : wf s ->
  (forall t sp, last_id s <= t -> token_approval s t sp = None) ->
  forall t sp, last_id (fst (step e o s)) <= t -> token_approval (fst (step e o s)) t sp = None.
Proof.
  intros W H t sp L.
  assert (M : last_id s <= t).
  { destruct (step e o s) as [s' a] eqn:E. destruct (minted_step _ _ _ _ _ E) as [_ X]. cbn [fst] in L. lia. }
  assert (O : owner_of s t = None).
  { unfold owner_of. destruct (tokens s !! t) as [tok|] eqn:E; [|reflexivity]. destruct (wf_lt _ W _ _ E). lia. }
  destruct (token_approval (fst (step e o s)) t sp) as [ap|] eqn:E; [|reflexivity]. exfalso.
  assert (D : token_approval (fst (step e o s)) t sp <> token_approval s t sp) by (rewrite E, (H t sp M); discriminate).
  apply C20_only_owner_approves in D as [(l & a & ow & _ & _ & _ & X & _)|[(l & a & ow & _ & _ & _ & X & _)|(l & a & -> & _)]]; [congruence..|].
  apply (proj1 (C20_transfer_from_adds_none e l s t sp ap)) in E. rewrite (H t sp M) in E. discriminate.
Qed.
Lemma unminted_run h s : wf s -> (forall t sp, last_id s <= t -> token_approval s t sp = None) ->
  forall t sp, last_id (run h s) <= t -> token_approval (run h s) t sp = None.
Proof.
  revert s. induction h as [|[e o] h IH]; intros s W H; [exact H|]. cbn [run].
  apply IH; [apply step_wf, W|apply unminted_step; assumption].
Qed.

Lemma none_given_run p h s :
  (forall e o, (e, o) ∈ h -> e_caller e <> p) ->
  (forall ow sp, acc_owner ow = p -> collection_approval s ow sp = None) ->
  forall ow sp, acc_owner ow = p -> collection_approval (run h s) ow sp = None.
Proof.
  revert s. induction h as [|[e o] h IH]; intros s N H; [exact H|]. cbn [run]. apply IH.
  - intros e' o' I. apply (N e' o'). right. exact I.
  - intros ow sp E. destruct (collection_approval (fst (step e o s)) ow sp) as [ap|] eqn:F; [|reflexivity]. exfalso.
    apply others_add_none_collection in F; [|rewrite E; apply (N e o); left]. rewrite (H ow sp E) in F. discriminate.
Qed.

(** A token minted to somebody who never makes a call - neither before nor after - is theirs for ever, whatever all the others do. *)
Theorem C161_minted caller url_ok a s0 h1 e l n h2 k r :
  init caller url_ok a = Some s0 ->
  snd (step e (OMint l) (run h1 s0)) = ANat n ->
  l !! k = Some r ->
  (forall e' o', (e', o') ∈ h1 ++ (e, OMint l) :: h2 -> e_caller e' <> acc_owner (mr_owner r)) ->
  owner_of (run (h1 ++ (e, OMint l) :: h2) s0) (n + N.of_nat k) = Some (mr_owner r).
Proof.
  intros I A K N. set (t := n + N.of_nat k). set (s1 := run (h1 ++ [(e, OMint l)]) s0).
  assert (RA : forall x y s, run (x ++ y) s = run y (run x s)).
  { intros x. induction x as [|[e' o'] x IH]; intros y s; [reflexivity|]. cbn [run app]. apply IH. }
  replace (h1 ++ (e, OMint l) :: h2) with ((h1 ++ [(e, OMint l)]) ++ h2) in * by (rewrite <- app_assoc; reflexivity).
  rewrite RA. fold s1.
  assert (Re : reachable s1) by (exists caller, url_ok, a, s0, (h1 ++ [(e, OMint l)]); auto).
  pose proof (init_last_id _ _ _ _ I) as (_ & _ & _ & TA & CA & _).
  assert (E1 : s1 = fst (step e (OMint l) (run h1 s0))) by (unfold s1; rewrite RA; reflexivity).
  pose proof (run_wf h1 s0 (init_wf _ _ _ _ I)) as W.
  assert (T0 : forall t' sp, last_id (run h1 s0) <= t' -> token_approval (run h1 s0) t' sp = None).
  { apply unminted_run; [apply (init_wf _ _ _ _ I)|]. intros t' sp _. unfold token_approval. rewrite TA, lookup_empty. reflexivity. }
  assert (C1 : forall sp, collection_approval s1 (mr_owner r) sp = None).
  { intros sp. unfold s1. apply (none_given_run (acc_owner (mr_owner r))); [| |reflexivity].
    - intros e' o' J. apply (N e' o'). apply elem_of_app. left. exact J.
    - intros ow sp' _. unfold collection_approval. rewrite CA, lookup_empty. reflexivity. }
  destruct (step e (OMint l) (run h1 s0)) as [s' ans] eqn:S. cbn [fst snd] in *. subst ans.
  destruct (step_mint _ _ _ _ _ S) as (-> & _ & _ & _ & _ & _ & m & idxs & c & _ & _ & ES).
  assert (B : (k < length l)%nat) by (apply lookup_lt_Some in K; exact K).
  assert (O1 : owner_of s1 t = Some (mr_owner r)).
  { rewrite E1, ES. unfold owner_of. cbn. rewrite mint_tokens_lookup. rewrite decide_True by (unfold t, nlen; lia).
    replace (N.to_nat (t - last_id (run h1 s0))) with k by (unfold t; lia). rewrite K. reflexivity. }
  assert (T1 : forall sp, token_approval s1 t sp = None).
  { intros sp. rewrite E1, ES. unfold token_approval. cbn. apply (T0 t sp). unfold t. lia. }
  apply (C161_keeps h2 s1 t (mr_owner r) Re O1). intros e' o' J. split; [apply (N e' o'), elem_of_app; right; exact J|].
  intros sub. split; intros X.
  - apply approved_token in X as (ap & X & _). rewrite T1 in X. discriminate.
  - apply approved_collection in X as (ap & X & _). rewrite C1 in X. discriminate.
Qed.
Print Assumptions C161_minted.

(** Not so for a token received by icrc7_transfer: whoever the giver had approved before can take it away. *)
Theorem C161_received_refuted :
  ~ (forall s e a s' i h, reachable s -> step e (OTransfer [a]) s = (s', ABatch [Ok i]) ->
       owner_of s' (ta_tid a) = Some (ta_to a) ->
       (forall e' o', (e', o') ∈ h -> e_caller e' <> acc_owner (ta_to a)) ->
       (forall sp, collection_approval s' (ta_to a) sp = None) ->
       owner_of (run h s') (ta_tid a) = Some (ta_to a)).
Proof.
  intros H. specialize (H demo2 (from_ alice 3000000000) (xfer carol 1) (fst (step (from_ alice 3000000000) (OTransfer [xfer carol 1]) demo2)) 5
    [(from_ bob 4000000000, OTransferFrom [tfrom carol bob 1])] (demo_reachable demo2_h)).
  assert (X : owner_of (run [(from_ bob 4000000000, OTransferFrom [tfrom carol bob 1])]
    (fst (step (from_ alice 3000000000) (OTransfer [xfer carol 1]) demo2))) 1 = Some (acct carol)).
  { apply H; [apply snd_pair; vm_compute; reflexivity|vm_compute; reflexivity| |].
    - intros e' o' J. apply elem_of_list_singleton in J. injection J as -> _. vm_compute. discriminate.
    - intros sp. unfold collection_approval. replace (col_appr _ !! _) with (@None appmap) by (vm_compute; reflexivity). reflexivity. }
  vm_compute in X. discriminate X.
Qed.
Print Assumptions C161_received_refuted.

(** ** Examples *)

(** carol and the administrator try what they can; alice's token 2 and bob's token 3 stay.  carol's approval for alice's collection
    has run out by then. *)
Definition attempts : history :=
  [(from_ carol 10000000000, OTransferFrom [tfrom alice carol 2; tfrom bob carol 3]);
   (from_ carol 10000000001, OApproveTokens [appr 2 carol 10000000001 None]);
   (from_ admin 10000000002, OBurn 2);
   (from_ admin 10000000003, OTransfer [xfer admin 2]);
   (from_ admin 10000000004, OGrant carol PManageAuthorities);
   (from_ carol 10000000005, OUpgrade)].
Example C161_example :
  reachable demo2 /\ owner_of demo2 2 = Some (acct alice) /\
  (forall e o, (e, o) ∈ attempts -> outsider (e_caller e) demo2 2 (acct alice) (e_now e)) /\
  collection_approval demo2 (acct alice) (acct carol) <> None /\
  owner_of (run attempts demo2) 2 = Some (acct alice).
Proof.
  assert (Re : reachable demo2) by apply demo_reachable.
  assert (O : owner_of demo2 2 = Some (acct alice)) by (vm_compute; reflexivity).
  assert (H : forall e o, (e, o) ∈ attempts -> outsider (e_caller e) demo2 2 (acct alice) (e_now e)).
  { assert (T : tok_appr demo2 !! 2 = None) by (vm_compute; reflexivity).
    assert (C : exists m, col_appr demo2 !! akey (acct alice) = Some m /\
      map (fun x => (fst x, a_expires (snd (snd x)))) (map_to_list m) = [(akey (acct carol), Some (t0 + 9000000000))])
      by (eexists; split; vm_compute; reflexivity).
    destruct C as (m & C & C2).
    assert (Q : forall sub p n, t0 + 9000000000 <= n ->
      ~ token_approved demo2 2 (mkAcc p sub) n /\ ~ collection_approved demo2 (acct alice) (mkAcc p sub) n).
    { intros sub p n L. split.
      - intros (m' & k & ap & X & _). rewrite T in X. discriminate.
      - intros (m' & k & ap & X & Y & Z). rewrite C in X. injection X as <-. apply elem_of_map_to_list in Y.
        apply (elem_of_list_fmap_1 (fun x => (fst x, a_expires (snd (snd x))))) in Y. change (_ <$> _) with (map (fun x => (fst x, a_expires (snd (snd x)))) (map_to_list m)) in Y.
        rewrite C2 in Y. apply elem_of_list_singleton in Y. apply (f_equal snd) in Y. cbn [fst snd] in Y. rewrite Y in Z. lia. }
    intros e o J. assert (F : (e_caller e = carol \/ e_caller e = admin) /\ t0 + 9000000000 <= e_now e).
    { repeat (apply elem_of_cons in J as [J|J]; [injection J as -> ->; split; [first [left; reflexivity|right; reflexivity]|vm_compute; discriminate]|]).
      apply elem_of_nil in J. destruct J. }
    destruct F as [F L]. split; [destruct F as [-> | ->]; vm_compute; discriminate|]. intros sub. apply Q. exact L. }
  split; [exact Re|]. split; [exact O|]. split; [exact H|]. split; [vm_compute; discriminate|].
  apply (C161_keeps attempts demo2 2 (acct alice) Re O H).
Qed.

(** Token 3 was minted to bob, who makes no call. *)
Example C161_minted_example :
  init admin (fun _ => true) demo_args = Some demo0 /\
  snd (step (from_ admin 0) mint3 (run [] demo0)) = ANat 1 /\
  (forall e' o', (e', o') ∈ [] ++ (from_ admin 0, mint3) :: attempts -> e_caller e' <> bob) /\
  owner_of (run ([] ++ (from_ admin 0, mint3) :: attempts) demo0) 3 = Some (acct bob).
Proof.
  assert (N : forall e' o', (e', o') ∈ [] ++ (from_ admin 0, mint3) :: attempts -> e_caller e' <> bob).
  { intros e o J. repeat (apply elem_of_cons in J as [J|J]; [injection J as -> ->; vm_compute; discriminate|]). apply elem_of_nil in J. destruct J. }
  assert (A : snd (step (from_ admin 0) mint3 (run [] demo0)) = ANat 1) by (vm_compute; reflexivity).
  split; [apply demo0_init|]. split; [exact A|]. split; [exact N|].
  apply (C161_minted admin (fun _ => true) demo_args demo0 [] (from_ admin 0) _ 1 attempts 2 (mkMint (acct bob) None []) demo0_init A eq_refl N).
Qed.
