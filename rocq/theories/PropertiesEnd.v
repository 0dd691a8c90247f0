(** C173: how approvals end. *)
From Verif Require Import Base ModelPrincipal ModelState ModelIcrc7 ModelIcrc37 ModelManagement ModelLifecycle
  ModelQueries ModelStep ProofsItems ProofsManage ProofsMicro Spec ProofsCore ProofsOwner ProofsTime ProofsRate
  ProofsApprovals ProofsLock Scenario PropertiesRecord.

(** The time of an approval is over. *)
Definition over (ap : approval) (now : N) : Prop := exists x, a_expires ap = Some x /\ x <= now.

(** A message's cause for ending the approval [ap] of [sp] for token [t]: the holder revokes or renews it, the token is moved
    by an approved spender, or its time is over and a spender tried.  [new] are the blocks written meanwhile. *)
Definition ends_token (e : env) (o : op) (s : state) (new : list tx) (t : N) (sp : account) (ap : approval) : Prop :=
  match o with
  | ORevokeTokens l => exists a ow, a ∈ l /\ rv_tid a = t /\ concerns (rv_spender a) sp /\
      owner_of s t = Some ow /\ akey ow = akey (mkAcc (e_caller e) (rv_from_sub a))
  | OApproveTokens l => exists a ow, a ∈ l /\ ap_tid a = t /\ akey (ai_spender (ap_info a)) = akey sp /\
      owner_of s t = Some ow /\ akey ow = akey (mkAcc (e_caller e) (ai_from_sub (ap_info a)))
  | OTransferFrom l => (exists a b, a ∈ l /\ tf_tid a = t /\ b ∈ new /\ tx_btype b = "37xfer"%string /\ tx_tid b = Some t) \/
      (exists a, a ∈ l /\ tf_tid a = t /\ akey (mkAcc (e_caller e) (tf_spender_sub a)) = akey sp) /\ over ap (e_now e)
  | _ => False
  end.

(** The same for the approval [ap] of [sp] for the collection of [ow]; here any token of the account will do. *)
Definition ends_collection (e : env) (o : op) (new : list tx) (ow sp : account) (ap : approval) : Prop :=
  match o with
  | ORevokeCollection l => exists a, a ∈ l /\ concerns (rc_spender a) sp /\ akey ow = akey (mkAcc (e_caller e) None)
  | OApproveCollection l => exists a, a ∈ l /\ akey (ai_spender a) = akey sp /\ akey ow = akey (mkAcc (e_caller e) (ai_from_sub a))
  | OTransferFrom l => (exists a b, a ∈ l /\ akey (tf_from a) = akey ow /\
      b ∈ new /\ tx_btype b = "37xfer"%string /\ tx_tid b = Some (tf_tid a) /\ tx_from b = Some (tf_from a)) \/
      (exists a, a ∈ l /\ akey (mkAcc (e_caller e) (tf_spender_sub a)) = akey sp) /\ over ap (e_now e)
  | _ => False
  end.

Lemma unexpired_over now ap : unexpired now ap = false -> over ap now.
Proof.
  unfold unexpired, over. destruct (a_expires ap) as [x|]; [|discriminate]. intros H. exists x. split; [reflexivity|].
  destruct (now <? x) eqn:E; [discriminate|]. apply N.ltb_ge in E. exact E.
Qed.

Lemma drop_expired_keeps {K} `{Countable K} now (k k' : K) sp sp' M ap :
  match M !! k' with Some m => snd <$> (m : appmap) !! sp' | None => None end = Some ap ->
  match drop_expired now k sp M !! k' with Some m => snd <$> (m : appmap) !! sp' | None => None end = Some ap \/
  (k = k' /\ sp = sp' /\ over ap now).
Proof.
  intros X. unfold drop_expired. destruct (M !! k) as [m|] eqn:E; [|auto]. destruct (m !! sp) as [[ka a]|] eqn:F; [|auto].
  destruct (unexpired now a) eqn:U; [auto|]. destruct (decide (k = k')) as [<-|D]; [|left; rewrite lookup_insert_ne by exact D; exact X].
  rewrite lookup_insert. rewrite E in X. destruct (decide (sp = sp')) as [<-|D]; [|left; rewrite lookup_delete_ne by exact D; exact X].
  right. rewrite F in X. simpl in X. injection X as <-. auto using unexpired_over.
Qed.

(** What a stretch of one message may do to the approval. *)
Definition token_kept (e : env) (o : op) (t : N) (sp : account) (ap : approval) (s s' : state) : Prop :=
  exists new, blocks s' = blocks s ++ new /\
    ((exists l, o = ORevokeTokens l) \/ (exists l, o = OApproveTokens l) -> tokens s' = tokens s) /\
    (token_approval s t sp = Some ap -> token_approval s' t sp = Some ap \/ ends_token e o s new t sp ap).

Lemma ends_token_more e o s s' new new' t sp ap :
  ((exists l, o = ORevokeTokens l) \/ (exists l, o = OApproveTokens l) -> owner_of s' t = owner_of s t) ->
  (forall b, b ∈ new -> b ∈ new') -> ends_token e o s' new t sp ap -> ends_token e o s new' t sp ap.
Proof.
  intros T I. destruct o; simpl; auto.
  - intros (a & ow & A & B & C & D & E). exists a, ow. rewrite <- T by eauto. auto.
  - intros (a & ow & A & B & C & D & E). exists a, ow. rewrite <- T by eauto. auto.
  - intros [(a & b & A & B & C & D)|X]; [|auto]. left. exists a, b. auto.
Qed.

Lemma ends_collection_more e o new new' ow sp ap :
  (forall b, b ∈ new -> b ∈ new') -> ends_collection e o new ow sp ap -> ends_collection e o new' ow sp ap.
Proof.
  intros I. destruct o; simpl; auto. intros [(a & b & A & B & C & D)|X]; [|auto]. left. exists a, b. auto.
Qed.

Lemma token_kept_refl e o t sp ap s : token_kept e o t sp ap s s.
Proof. exists []. rewrite app_nil_r. auto. Qed.

Lemma token_kept_trans e o t sp ap a b c :
  token_kept e o t sp ap a b -> token_kept e o t sp ap b c -> token_kept e o t sp ap a c.
Proof.
  intros (l & B & T & K) (l' & B' & T' & K'). exists (l ++ l'). split; [rewrite B', B, app_assoc; reflexivity|].
  split; [intros X; rewrite T', T by exact X; reflexivity|]. intros A. destruct (K A) as [A'|E].
  - destruct (K' A') as [A''|E]; [auto|]. right. eapply ends_token_more; [| |exact E].
    + intros X. unfold owner_of. rewrite (T X). reflexivity.
    + intros x Hx. apply elem_of_app. auto.
  - right. eapply ends_token_more; [reflexivity| |exact E]. intros x Hx. apply elem_of_app. auto.
Qed.

Lemma token_kept_same e o t sp ap s s' l :
  blocks s' = blocks s ++ l -> tok_appr s' = tok_appr s -> ((exists l, o = ORevokeTokens l) \/ (exists l, o = OApproveTokens l) -> tokens s' = tokens s) ->
  token_kept e o t sp ap s s'.
Proof. intros B A T. exists l. split; [exact B|]. split; [exact T|]. unfold token_approval. rewrite A. auto. Qed.

Lemma token_kept_micro e o t sp ap s s' : micro e o s s' -> token_kept e o t sp ap s s'.
Proof.
  intros H. destruct H; open_quiet.
  all: try (eapply token_kept_same; [unfold blocks; simpl; rewrite ?map_app; reflexivity|reflexivity|
            try reflexivity; intros [[? ?]|[? ?]]; discriminate]).
  all: try (apply (token_kept_same _ _ _ _ _ _ _ []); [rewrite app_nil_r; reflexivity|reflexivity|
            try reflexivity; intros [[? ?]|[? ?]]; congruence]).
  - (* approve *)
    eexists. split; [unfold blocks; simpl; rewrite map_app; reflexivity|]. split; [reflexivity|]. unfold token_approval. simpl. intros A.
    destruct (decide (ap_tid a = t)) as [E|D]; [|left; rewrite lookup_insert_ne by exact D; exact A].
    rewrite E, lookup_insert, appmap_insert_lookup. destruct (decide (akey (ai_spender (ap_info a)) = akey sp)) as [F|F].
    + right. exists a, owner. rewrite <- E. auto.
    + left. destruct (tok_appr s !! t) as [m|]; [exact A|discriminate].
  - (* revoke *)
    eexists. split; [unfold blocks; simpl; rewrite map_app; reflexivity|]. split; [reflexivity|]. unfold token_approval. simpl. intros A.
    destruct (decide (rv_tid a = t)) as [E|D]; [|left; rewrite lookup_insert_ne by exact D; exact A].
    rewrite E, lookup_insert. rewrite E in *.
    match goal with X : tok_appr s !! t = Some m |- _ => rewrite X in A end.
    destruct (decide (concerns (rv_spender a) sp)) as [C|C].
    + right. exists a, owner. auto.
    + left. unfold revoke_from, concerns in *. destruct (rv_spender a) as [y|]; [|exfalso; apply C; exact Logic.I].
      rewrite lookup_delete_ne by exact C. exact A.
  - (* expired *)
    exists []. split; [rewrite app_nil_r; reflexivity|]. split; [intros [[? ?]|[? ?]]; discriminate|].
    unfold token_approval. simpl. intros A.
    destruct (drop_expired_keeps (e_now e) (tf_tid a) t (akey (mkAcc (e_caller e) (tf_spender_sub a))) (akey sp) (tok_appr s) ap A)
      as [X|(X & Y & Z)]; [left; exact X|]. right. right. split; [exists a; auto|exact Z].
  - (* transfer_from *)
    eexists. split; [unfold blocks; simpl; rewrite map_app; reflexivity|]. split; [intros [[? ?]|[? ?]]; discriminate|].
    unfold token_approval. simpl. intros A. destruct (decide (tf_tid a = t)) as [E|D].
    + right. left. eexists a, _. rewrite E. split; [assumption|]. split; [reflexivity|]. split; [left|]. rewrite <- E. auto.
    + left. rewrite lookup_delete_ne, drop_expired_other by exact D. exact A.
  - destruct p, r; simpl; (eapply (token_kept_same _ _ _ _ _ _ _ []);
      [rewrite app_nil_r; reflexivity|reflexivity|intros [[? ?]|[? ?]]; discriminate]).
Qed.

(** The same for collections. *)
Definition collection_kept (e : env) (o : op) (ow sp : account) (ap : approval) (s s' : state) : Prop :=
  exists new, blocks s' = blocks s ++ new /\
    (collection_approval s ow sp = Some ap -> collection_approval s' ow sp = Some ap \/ ends_collection e o new ow sp ap).

Lemma collection_kept_same e o ow sp ap s s' l :
  blocks s' = blocks s ++ l -> col_appr s' = col_appr s -> collection_kept e o ow sp ap s s'.
Proof. intros B A. exists l. split; [exact B|]. unfold collection_approval. rewrite A. auto. Qed.

Lemma collection_kept_trans e o ow sp ap a b c :
  collection_kept e o ow sp ap a b -> collection_kept e o ow sp ap b c -> collection_kept e o ow sp ap a c.
Proof.
  intros (l & B & K) (l' & B' & K'). exists (l ++ l'). split; [rewrite B', B, app_assoc; reflexivity|].
  intros A. destruct (K A) as [A'|E].
  - destruct (K' A') as [A''|E]; [auto|]. right. eapply ends_collection_more; [|exact E]. intros x Hx. apply elem_of_app. auto.
  - right. eapply ends_collection_more; [|exact E]. intros x Hx. apply elem_of_app. auto.
Qed.

Lemma collection_kept_micro e o ow sp ap s s' : micro e o s s' -> collection_kept e o ow sp ap s s'.
Proof.
  intros H. destruct H; open_quiet.
  all: try (eapply collection_kept_same; [unfold blocks; simpl; rewrite ?map_app; reflexivity|reflexivity]).
  all: try (apply (collection_kept_same _ _ _ _ _ _ _ []); [rewrite app_nil_r; reflexivity|reflexivity]).
  - (* approve *)
    eexists. split; [unfold blocks; simpl; rewrite map_app; reflexivity|]. unfold collection_approval. simpl. intros A.
    destruct (decide (akey (mkAcc (e_caller e) (ai_from_sub a)) = akey ow)) as [E|D]; [|left; rewrite lookup_insert_ne by exact D; exact A].
    rewrite E, lookup_insert, appmap_insert_lookup. destruct (decide (akey (ai_spender a) = akey sp)) as [F|F].
    + right. exists a. auto.
    + left. destruct (col_appr s !! akey ow) as [m|]; [exact A|discriminate].
  - (* revoke *)
    eexists. split; [unfold blocks; simpl; rewrite map_app; reflexivity|]. unfold collection_approval. simpl. intros A.
    destruct (decide (akey (mkAcc (e_caller e) None) = akey ow)) as [E|D]; [|left; rewrite lookup_insert_ne by exact D; exact A].
    rewrite E, lookup_insert. rewrite E in *.
    match goal with X : col_appr s !! akey ow = Some m |- _ => rewrite X in A end.
    destruct (decide (concerns (rc_spender a) sp)) as [C|C].
    + right. exists a. auto.
    + left. unfold revoke_from, concerns in *. destruct (rc_spender a) as [y|]; [|exfalso; apply C; exact Logic.I].
      rewrite lookup_delete_ne by exact C. exact A.
  - (* expired *)
    exists []. split; [rewrite app_nil_r; reflexivity|]. unfold collection_approval. simpl. intros A.
    destruct (drop_expired_keeps (e_now e) (akey (t_owner nft)) (akey ow) (akey (mkAcc (e_caller e) (tf_spender_sub a))) (akey sp) (col_appr s) ap A)
      as [X|(X & Y & Z)]; [left; exact X|]. right. right. split; [exists a; auto|exact Z].
  - (* transfer_from *)
    eexists. split; [unfold blocks; simpl; rewrite map_app; reflexivity|]. unfold collection_approval. simpl. intros A.
    destruct (decide (akey (tf_from a) = akey ow)) as [E|D].
    + right. left. eexists a, _. split; [assumption|]. split; [exact E|]. split; [left|]. auto.
    + left. rewrite lookup_delete_ne by exact D. rewrite drop_expired_other by congruence. exact A.
  - destruct p, r; simpl; (eapply (collection_kept_same _ _ _ _ _ _ _ []); [rewrite app_nil_r; reflexivity|reflexivity]).
Qed.

(** ** C173 *)

(** The blocks written by the message of [ev]. *)
Definition written (ev : event) : list tx := drop (length (blocks (ev_before ev))) (blocks (ev_after ev)).

(** A token's approval is there until its holder revokes or renews it, a spender moves the token, or, its time being over, the
    spender tries to use it.  Nobody and nothing else ends it. *)
Theorem C173_token h s t sp ap :
  token_approval s t sp = Some ap ->
  token_approval (run h s) t sp = Some ap \/
  exists ev, ev ∈ trace h s /\ token_approval (ev_before ev) t sp = Some ap /\
    ends_token (ev_env ev) (ev_op ev) (ev_before ev) (written ev) t sp ap.
Proof.
  revert s. induction h as [|[e o] h IH]; intros s A; simpl; [auto|].
  assert (K : token_kept e o t sp ap s (fst (step e o s))).
  { apply (step_rel (fun _ => True) (token_kept e o t sp ap) e o s); [apply token_kept_refl|apply token_kept_trans| |exact Logic.I].
    intros. split; [exact Logic.I|]. apply token_kept_micro. assumption. }
  destruct K as (new & B & _ & K). destruct (step e o s) as [s1 an] eqn:S. simpl in *. destruct (K A) as [A'|E].
  - destruct (IH s1 A') as [X|(ev & I & X)]; [auto|]. right. exists ev. split; [right; exact I|exact X].
  - right. eexists. split; [left|]. simpl. split; [exact A|]. unfold written. simpl. rewrite B, drop_app. exact E.
Qed.
Print Assumptions C173_token.

(** For collections the same, except that the use of any approval of the account, for whichever of its tokens, ends them all.
    Missing: that one's use does not end another's. *)
Theorem C173_collection_partial h s ow sp ap :
  collection_approval s ow sp = Some ap ->
  collection_approval (run h s) ow sp = Some ap \/
  exists ev, ev ∈ trace h s /\ collection_approval (ev_before ev) ow sp = Some ap /\
    ends_collection (ev_env ev) (ev_op ev) (written ev) ow sp ap.
Proof.
  revert s. induction h as [|[e o] h IH]; intros s A; simpl; [auto|].
  assert (K : collection_kept e o ow sp ap s (fst (step e o s))).
  { apply (step_rel (fun _ => True) (collection_kept e o ow sp ap) e o s);
      [intros; apply (collection_kept_same _ _ _ _ _ _ _ []); [rewrite app_nil_r|]; reflexivity|apply collection_kept_trans| |exact Logic.I].
    intros. split; [exact Logic.I|]. apply collection_kept_micro. assumption. }
  destruct K as (new & B & K). destruct (step e o s) as [s1 an] eqn:S. simpl in *. destruct (K A) as [A'|E].
  - destruct (IH s1 A') as [X|(ev & I & X)]; [auto|]. right. exists ev. split; [right; exact I|exact X].
  - right. eexists. split; [left|]. simpl. split; [exact A|]. unfold written. simpl. rewrite B, drop_app. exact E.
Qed.
Print Assumptions C173_collection_partial.

(** Refuted: bob uses the approval for token 1, and carol's for the collection, still running, is gone. *)
Theorem C173_collection_refuted :
  exists s e l ow sp ap, reachable s /\ collection_approval s ow sp = Some ap /\ ~ over ap (e_now e) /\
    akey (mkAcc (e_caller e) None) <> akey sp /\ e_caller e <> acc_owner ow /\
    collection_approval (fst (step e (OTransferFrom l) s)) ow sp = None.
Proof.
  exists demo2, (from_ bob 3000000000), [tfrom alice bob 1], (acct alice), (acct carol).
  eexists. split; [apply demo_reachable|]. split; [vm_compute; reflexivity|].
  split; [intros (x & X & Y); vm_compute in X; injection X as <-; vm_compute in Y; contradiction|].
  splits; try (vm_compute; discriminate). vm_compute. reflexivity.
Qed.
Print Assumptions C173_collection_refuted.

(** Others move, approve and burn; bob's approval for token 1 and carol's for alice's collection stay; then each ends in one
    of the ways named. *)
Example C173_example :
  let h := [(from_ carol 2500000000, OApproveTokens [appr 1 carol 2500000000 None]);
            (from_ carol 2600000000, ORevokeTokens [mkRevokeArg None None 1 None None]);
            (from_ bob 2700000000, OBurn 3); (from_ admin 2800000000, mint3); (from_ admin 2900000000, OUpgrade);
            (from_ alice 2950000000, OTransfer [xfer carol 1])] in
  let s := run h demo2 in
  token_approval demo2 1 (acct bob) <> None /\ token_approval s 1 (acct bob) = token_approval demo2 1 (acct bob) /\
  collection_approval demo2 (acct alice) (acct carol) <> None /\
  collection_approval s (acct alice) (acct carol) = collection_approval demo2 (acct alice) (acct carol) /\
  token_approval (fst (step (from_ carol 3500000000) (ORevokeTokens [mkRevokeArg None None 1 None None]) s)) 1 (acct bob) = None /\
  collection_approval (fst (step (from_ carol 9000000000) (OTransferFrom [tfrom alice bob 2]) s)) (acct alice) (acct carol) = None.
Proof. splits; try (vm_compute; reflexivity); vm_compute; discriminate. Qed.
