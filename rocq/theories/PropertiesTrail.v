(** The transaction log as the record of approvals: C87, C88. *)
From Verif Require Import Base ModelPrincipal ModelState ModelIcrc7 ModelIcrc37 ModelManagement ModelLifecycle
  ModelQueries ModelStep ProofsItems ProofsManage ProofsMicro Spec ProofsCore ProofsOwner ProofsLog ProofsApprovals
  ProofsLock Scenario.

(** ** Specification: approvals as a reader of the log computes them *)

(** The approval an approval block (src/core_nft/src/updates/icrc37.rs:166-179,334-347) describes. *)
Definition block_approval (b : tx) : option approval :=
  match tx_spender b, tx_from b with
  | Some x, Some f => Some (mkAppr x f (tx_exp b) (tx_time b) (tx_memo b))
  | _, _ => None
  end.

(** Does the block name spender [sp]; does it name [sp] or nobody? *)
Definition names (b : tx) (sp : account) : bool :=
  match tx_spender b with Some x => bool_decide (akey x = akey sp) | None => false end.
(** See [names]. *)
Definition names_or_all (b : tx) (sp : account) : bool :=
  match tx_spender b with Some x => bool_decide (akey x = akey sp) | None => true end.

(** What one block says about the approval of [sp] on token [t]: an approval block gives it, a revocation naming [sp] or
    nobody ends it, and so does a transfer by a spender. *)
Definition token_block (t : N) (sp : account) (d : option approval) (b : tx) : option approval :=
  if bool_decide (tx_tid b = Some t) then
    if bool_decide (tx_btype b = "37approve"%string) then if names b sp then block_approval b else d
    else if bool_decide (tx_btype b = "37revoke"%string) then if names_or_all b sp then None else d
    else if bool_decide (tx_btype b = "37xfer"%string) then None
    else d
  else d.

(** The approval of [sp] on [t] according to a log. *)
Definition granted_token (l : list tx) (t : N) (sp : account) : option approval := fold_left (token_block t sp) l None.

(** Is the block from account [ow]? *)
Definition block_from (b : tx) (ow : account) : bool :=
  match tx_from b with Some f => bool_decide (akey f = akey ow) | None => false end.

(** What one block says about the approval of [sp] for the collection of [ow]. *)
Definition collection_block (ow sp : account) (d : option approval) (b : tx) : option approval :=
  if block_from b ow then
    if bool_decide (tx_btype b = "37approve_coll"%string) then if names b sp then block_approval b else d
    else if bool_decide (tx_btype b = "37revoke_coll"%string) then if names_or_all b sp then None else d
    else if bool_decide (tx_btype b = "37xfer"%string) then None
    else d
  else d.

(** The approval of [sp] for the collection of [ow] according to a log. *)
Definition granted_collection (l : list tx) (ow sp : account) : option approval :=
  fold_left (collection_block ow sp) l None.

(** An approval that has not expired at [now]. *)
Definition live_at (now : N) (ap : approval) : Prop := match a_expires ap with None => True | Some x => now < x end.

(** ** Proof: the stored approvals are those of the log, except expired ones that were cleaned up *)

Definition agrees (B : N) (stored granted : option approval) : Prop :=
  match stored with
  | Some ap => granted = Some ap
  | None => match granted with None => True | Some ap => ~ live_at B ap end
  end.

Definition trail (B : N) (s : state) : Prop :=
  (forall t sp, agrees B (token_approval s t sp) (granted_token (blocks s) t sp)) /\
  (forall ow sp, agrees B (collection_approval s ow sp) (granted_collection (blocks s) ow sp)).

Lemma granted_token_app l l' t sp : granted_token (l ++ l') t sp = fold_left (token_block t sp) l' (granted_token l t sp).
Proof. unfold granted_token. apply fold_left_app. Qed.

Lemma granted_collection_app l l' ow sp :
  granted_collection (l ++ l') ow sp = fold_left (collection_block ow sp) l' (granted_collection l ow sp).
Proof. unfold granted_collection. apply fold_left_app. Qed.

(** Blocks of other kinds say nothing about approvals. *)
Definition other_kind (b : tx) : Prop := tx_btype b ∈ ["7mint"; "7xfer"; "7burn"; "7update_token"]%string.

Lemma token_block_other t sp d b : other_kind b -> token_block t sp d b = d.
Proof.
  unfold other_kind, token_block. intros H. destruct (bool_decide _); [|reflexivity].
  repeat (rewrite elem_of_cons in H); rewrite elem_of_nil in H.
  destruct H as [->|[->|[->|[->|[]]]]]; reflexivity.
Qed.

Lemma collection_block_other ow sp d b : other_kind b -> collection_block ow sp d b = d.
Proof.
  unfold other_kind, collection_block. intros H. destruct (block_from _ _); [|reflexivity].
  repeat (rewrite elem_of_cons in H); rewrite elem_of_nil in H.
  destruct H as [->|[->|[->|[->|[]]]]]; reflexivity.
Qed.

Lemma fold_other {D} (f : D -> tx -> D) l d :
  (forall d b, b ∈ l -> f d b = d) -> fold_left f l d = d.
Proof.
  revert d. induction l as [|b l IH]; intros d H; simpl; [reflexivity|].
  rewrite H by left. apply IH. intros. apply H. right. assumption.
Qed.

Lemma mint_txs_kind now k l b : b ∈ mint_txs now k l -> tx_btype b = "7mint"%string.
Proof.
  revert k. induction l as [|r l IH]; intros k H; simpl in H; [inversion H|].
  apply elem_of_cons in H. destruct H as [->|H]; [reflexivity|eauto].
Qed.

Lemma zip_snd {A B} (l : list A) (l' : list B) b : b ∈ map snd (zip l l') -> b ∈ l'.
Proof.
  revert l'. induction l as [|a l IH]; intros [|b' l'] H; simpl in H; try (inversion H; fail).
  apply elem_of_cons in H. destruct H as [->|H]; [left|right; auto].
Qed.

Lemma live_mono B B' ap : B <= B' -> ~ live_at B ap -> ~ live_at B' ap.
Proof. unfold live_at. destruct (a_expires ap); [lia|auto]. Qed.

Lemma unexpired_live now ap : unexpired now ap = true <-> live_at now ap.
Proof. unfold unexpired, live_at. destruct (a_expires ap); [apply N.ltb_lt|tauto]. Qed.

(** Cleaning up an expired approval keeps the agreement. *)
Lemma drop_expired_agrees {K} `{Countable K} (now B : N) (k k' : K) (sp sp' : acckey) (M : gmap K appmap) (g : option approval) :
  now <= B ->
  agrees B (match M !! k' with Some m => snd <$> m !! sp' | None => None end) g ->
  agrees B (match drop_expired now k sp M !! k' with Some m => snd <$> m !! sp' | None => None end) g.
Proof.
  intros Hn A. unfold drop_expired. destruct (M !! k) as [m|] eqn:E; [|exact A].
  destruct (m !! sp) as [[ka ap]|] eqn:E2; [|exact A].
  destruct (unexpired now ap) eqn:U; [exact A|].
  destruct (decide (k = k')) as [<-|Hne]; [|rewrite lookup_insert_ne by exact Hne; exact A].
  rewrite lookup_insert. rewrite E in A. destruct (decide (sp = sp')) as [<-|Hne].
  - rewrite lookup_delete. rewrite E2 in A. simpl in *. subst g.
    intros L. apply (live_mono now B) in L; auto. intros L'. apply unexpired_live in L'. congruence.
  - rewrite lookup_delete_ne by exact Hne. exact A.
Qed.

Lemma trail_other B s s' l :
  tok_appr s' = tok_appr s -> col_appr s' = col_appr s -> log s' = log s ++ l ->
  (forall b, b ∈ map snd l -> other_kind b) -> trail B s -> trail B s'.
Proof.
  unfold trail, token_approval, collection_approval, blocks. intros -> -> -> K [T C]. rewrite map_app. split.
  - intros t sp. rewrite granted_token_app, fold_other; [apply T|]. intros d b Hb. apply token_block_other, K, Hb.
  - intros ow sp. rewrite granted_collection_app, fold_other; [apply C|]. intros d b Hb.
    apply collection_block_other, K, Hb.
Qed.

Lemma trail_same B s s' :
  tok_appr s' = tok_appr s -> col_appr s' = col_appr s -> log s' = log s -> trail B s -> trail B s'.
Proof.
  intros E1 E2 E3. apply (trail_other B s s' []); auto; [rewrite E3, app_nil_r; reflexivity|]. intros b Hb. inversion Hb.
Qed.

Lemma trail_micro B e o s s' : e_now e <= B -> trail B s -> micro e o s s' -> trail B s'.
Proof.
  intros HB TR H. pose proof TR as [T C].
  assert (snoc : forall s1 i b, tok_appr s1 = tok_appr s -> col_appr s1 = col_appr s -> log s1 = log s ++ [(i, b)] ->
            other_kind b -> trail B s1).
  { intros s1 i b E1 E2 E3 K. eapply (trail_other B s s1 [(i, b)]); eauto.
    intros b' Hb. simpl in Hb. apply elem_of_list_singleton in Hb. subst. exact K. }
  destruct H; open_quiet; try exact TR.
  - (* transfer *) eapply snoc; [reflexivity..|]. unfold other_kind. cbn. right. left.
  - (* approve *) split.
    + intros t sp. unfold token_approval, blocks. cbn [tok_appr log set_tok_appr set_log set_windows set_lcalls].
      rewrite map_app, granted_token_app. cbn [map snd fold_left]. unfold token_block at 1. cbn [tx_tid approve_tx].
      destruct (decide (ap_tid a = t)) as [<-|Hne].
      * rewrite bool_decide_eq_true_2 by reflexivity. cbn [tx_btype approve_tx].
        rewrite bool_decide_eq_true_2 by reflexivity. unfold names. cbn [tx_spender approve_tx].
        rewrite lookup_insert, appmap_insert_lookup. destruct (decide (akey (ai_spender (ap_info a)) = akey sp)) as [E|Hne].
        -- rewrite bool_decide_eq_true_2 by exact E. reflexivity.
        -- rewrite bool_decide_eq_false_2 by exact Hne. specialize (T (ap_tid a) sp). unfold token_approval in T.
           destruct (tok_appr s !! ap_tid a); [exact T|]. simpl. rewrite lookup_empty. exact T.
      * rewrite bool_decide_eq_false_2 by congruence. rewrite lookup_insert_ne by exact Hne. apply T.
    + intros ow sp. unfold collection_approval, blocks. cbn [col_appr log set_tok_appr set_log set_windows set_lcalls].
      rewrite map_app, granted_collection_app. cbn [map snd fold_left]. unfold collection_block at 1.
      cbn [tx_btype approve_tx]. rewrite !bool_decide_eq_false_2 by discriminate. destruct (block_from _ _); apply C.
  - (* approve collection *) split.
    + intros t sp. unfold token_approval, blocks. cbn [tok_appr log set_col_appr set_log set_windows set_lcalls].
      rewrite map_app, granted_token_app. cbn [map snd fold_left]. unfold token_block at 1. cbn [tx_tid approve_tx].
      rewrite bool_decide_eq_false_2 by discriminate. apply T.
    + intros ow sp. unfold collection_approval, blocks. cbn [col_appr log set_col_appr set_log set_windows set_lcalls].
      rewrite map_app, granted_collection_app. cbn [map snd fold_left]. unfold collection_block at 1.
      unfold block_from. cbn [tx_from approve_tx].
      destruct (decide (akey (mkAcc (e_caller e) (ai_from_sub a)) = akey ow)) as [E|Hne].
      * rewrite bool_decide_eq_true_2 by exact E. cbn [tx_btype approve_tx].
        rewrite bool_decide_eq_true_2 by reflexivity. unfold names. cbn [tx_spender approve_tx]. rewrite E.
        rewrite lookup_insert, appmap_insert_lookup. destruct (decide (akey (ai_spender a) = akey sp)) as [E'|Hne].
        -- rewrite bool_decide_eq_true_2 by exact E'. reflexivity.
        -- rewrite bool_decide_eq_false_2 by exact Hne. specialize (C ow sp). unfold collection_approval in C.
           destruct (col_appr s !! akey ow); [exact C|]. simpl. rewrite lookup_empty. exact C.
      * rewrite bool_decide_eq_false_2 by exact Hne. rewrite lookup_insert_ne by exact Hne. apply C.
  - (* revoke *) split.
    + intros t sp. unfold token_approval, blocks. cbn [tok_appr log set_tok_appr set_log set_windows set_lcalls].
      rewrite map_app, granted_token_app. cbn [map snd fold_left]. unfold token_block at 1. cbn [tx_tid revoke_tx].
      destruct (decide (rv_tid a = t)) as [<-|Hne].
      * rewrite bool_decide_eq_true_2 by reflexivity. cbn [tx_btype revoke_tx].
        rewrite bool_decide_eq_false_2 by discriminate. rewrite bool_decide_eq_true_2 by reflexivity.
        unfold names_or_all. cbn [tx_spender revoke_tx].
        rewrite lookup_insert, revoke_from_lookup. destruct (rv_spender a) as [x|]; [|exact I].
        destruct (decide (akey x = akey sp)) as [E|Hne].
        -- rewrite bool_decide_eq_true_2 by exact E. exact I.
        -- rewrite bool_decide_eq_false_2 by exact Hne. specialize (T (rv_tid a) sp). unfold token_approval in T.
           rewrite H3 in T. exact T.
      * rewrite bool_decide_eq_false_2 by congruence. rewrite lookup_insert_ne by exact Hne. apply T.
    + intros ow sp. unfold collection_approval, blocks. cbn [col_appr log set_tok_appr set_log set_windows set_lcalls].
      rewrite map_app, granted_collection_app. cbn [map snd fold_left]. unfold collection_block at 1.
      cbn [tx_btype revoke_tx]. rewrite !bool_decide_eq_false_2 by discriminate. destruct (block_from _ _); apply C.
  - (* revoke collection *) split.
    + intros t sp. unfold token_approval, blocks. cbn [tok_appr log set_col_appr set_log set_windows set_lcalls].
      rewrite map_app, granted_token_app. cbn [map snd fold_left]. unfold token_block at 1. cbn [tx_tid revoke_tx].
      rewrite bool_decide_eq_false_2 by discriminate. apply T.
    + intros ow sp. unfold collection_approval, blocks. cbn [col_appr log set_col_appr set_log set_windows set_lcalls].
      rewrite map_app, granted_collection_app. cbn [map snd fold_left]. unfold collection_block at 1.
      unfold block_from. cbn [tx_from revoke_tx].
      destruct (decide (akey (mkAcc (e_caller e) None) = akey ow)) as [E|Hne].
      * rewrite bool_decide_eq_true_2 by exact E. cbn [tx_btype revoke_tx].
        rewrite bool_decide_eq_false_2 by discriminate. rewrite bool_decide_eq_true_2 by reflexivity.
        unfold names_or_all. cbn [tx_spender revoke_tx]. rewrite E.
        rewrite lookup_insert, revoke_from_lookup. destruct (rc_spender a) as [x|]; [|exact I].
        destruct (decide (akey x = akey sp)) as [E'|Hne].
        -- rewrite bool_decide_eq_true_2 by exact E'. exact I.
        -- rewrite bool_decide_eq_false_2 by exact Hne. specialize (C ow sp). unfold collection_approval in C.
           rewrite <- E, H1 in C. exact C.
      * rewrite bool_decide_eq_false_2 by exact Hne. rewrite lookup_insert_ne by exact Hne. apply C.
  - (* cleaning up *) split.
    + intros t sp. unfold token_approval, drop_both. cbn [tok_appr set_tok_appr set_col_appr set_windows set_lcalls].
      apply drop_expired_agrees; [exact HB|apply T].
    + intros ow sp. unfold collection_approval, drop_both. cbn [col_appr set_tok_appr set_col_appr set_windows set_lcalls].
      apply drop_expired_agrees; [exact HB|apply C].
  - (* transfer_from *) split.
    + intros t sp. unfold token_approval, blocks, s4, s3, s2, drop_both, move_token.
      cbn [tok_appr log set_tok_appr set_col_appr set_log set_windows set_lcalls set_tokens set_by_owner].
      rewrite map_app, granted_token_app. cbn [map snd fold_left]. unfold token_block at 1. cbn [tx_tid transfer_from_tx].
      destruct (decide (tf_tid a = t)) as [<-|Hne].
      * rewrite bool_decide_eq_true_2 by reflexivity. cbn [tx_btype transfer_from_tx].
        rewrite !(bool_decide_eq_false_2 (_ = "37approve"%string)) by discriminate.
        rewrite !(bool_decide_eq_false_2 (_ = "37revoke"%string)) by discriminate.
        rewrite bool_decide_eq_true_2 by reflexivity. rewrite lookup_delete. exact I.
      * rewrite bool_decide_eq_false_2 by congruence. rewrite lookup_delete_ne by exact Hne.
        apply drop_expired_agrees; [exact HB|apply T].
    + intros ow sp. unfold collection_approval, blocks, s4, s3, s2, drop_both, move_token.
      cbn [col_appr log set_tok_appr set_col_appr set_log set_windows set_lcalls set_tokens set_by_owner].
      rewrite map_app, granted_collection_app. cbn [map snd fold_left]. unfold collection_block at 1.
      unfold block_from. cbn [tx_from transfer_from_tx].
      destruct (decide (akey (tf_from a) = akey ow)) as [E|Hne].
      * rewrite bool_decide_eq_true_2 by exact E. cbn [tx_btype transfer_from_tx].
        rewrite !(bool_decide_eq_false_2 (_ = "37approve_coll"%string)) by discriminate.
        rewrite !(bool_decide_eq_false_2 (_ = "37revoke_coll"%string)) by discriminate.
        rewrite bool_decide_eq_true_2 by reflexivity. rewrite E, lookup_delete. exact I.
      * rewrite bool_decide_eq_false_2 by exact Hne. rewrite lookup_delete_ne by exact Hne.
        apply drop_expired_agrees; [exact HB|apply C].
  - (* failed mint *) eapply (trail_other B s); [reflexivity..| |exact TR].
    intros b Hb. apply zip_snd, mint_txs_kind in Hb. unfold other_kind. rewrite Hb. left.
  - eapply (trail_other B s); [reflexivity..| |exact TR].
    intros b Hb. apply zip_snd, mint_txs_kind in Hb. unfold other_kind. rewrite Hb. left.
  - eapply snoc; [reflexivity..|]. unfold other_kind. cbn. do 3 right. left.
  - eapply snoc; [reflexivity..|]. unfold other_kind. cbn. do 2 right. left.
  - (* reply *) destruct p, r; exact TR.
Qed.

Lemma trail_run B h s : Forall (fun x => e_now (fst x) <= B) h -> trail B s -> trail B (run h s).
Proof.
  revert s. induction h as [|[e o] h IH]; intros s F TR; simpl; [exact TR|]. inversion F; subst.
  apply IH; [assumption|]. apply step_inv; [|exact TR]. intros s1 s2 T1 M. eapply trail_micro; eauto.
Qed.

Lemma trail_init B caller url_ok a s : init caller url_ok a = Some s -> trail B s.
Proof.
  intros I0. apply init_inv in I0. destruct I0 as (_ & _ & _ & _ & ->).
  split; intros; [unfold token_approval|unfold collection_approval]; simpl; rewrite lookup_empty; exact I.
Qed.

Lemma agrees_live B now st g : agrees B st g -> B <= now ->
  (exists ap, st = Some ap /\ live_at now ap) <-> (exists ap, g = Some ap /\ live_at now ap).
Proof.
  unfold agrees. intros A L. destruct st as [ap|].
  - subst g. reflexivity.
  - split; [intros (? & ? & _); discriminate|]. intros (ap & -> & Lv). destruct (live_mono _ _ _ L A Lv).
Qed.

Lemma token_approved_live s t sp now :
  token_approved s t sp now <-> exists ap, token_approval s t sp = Some ap /\ live_at now ap.
Proof.
  unfold token_approved, approved_in, token_approval. split.
  - intros (m & k & ap & -> & E & L). rewrite E. exists ap. split; [reflexivity|exact L].
  - intros (ap & E & L). destruct (tok_appr s !! t) as [m|]; [|discriminate].
    destruct (m !! akey sp) as [[k ap']|] eqn:X; [|discriminate]. injection E as <-. eauto 10.
Qed.

Lemma collection_approved_live s ow sp now :
  collection_approved s ow sp now <-> exists ap, collection_approval s ow sp = Some ap /\ live_at now ap.
Proof.
  unfold collection_approved, approved_in, collection_approval. split.
  - intros (m & k & ap & -> & E & L). rewrite E. exists ap. split; [reflexivity|exact L].
  - intros (ap & E & L). destruct (col_appr s !! akey ow) as [m|]; [|discriminate].
    destruct (m !! akey sp) as [[k ap']|] eqn:X; [|discriminate]. injection E as <-. eauto 10.
Qed.

(** ** C87: whoever reads the log knows who may move a token on a token approval *)

Theorem C87_token_approvals_from_log caller url_ok a s0 h now t sp :
  init caller url_ok a = Some s0 -> Forall (fun x => e_now (fst x) <= now) h ->
  (token_approved (run h s0) t sp now <->
   exists ap, granted_token (blocks (run h s0)) t sp = Some ap /\ live_at now ap).
Proof.
  intros I0 F. rewrite token_approved_live. apply (agrees_live now); [|lia].
  apply (trail_run now h s0 F (trail_init now _ _ _ _ I0)).
Qed.

(** Every approval in store is the one the log shows, with its giver, expiry, time and memo. *)
Theorem C87_stored_token_approval_logged s t sp ap :
  reachable s -> token_approval s t sp = Some ap -> granted_token (blocks s) t sp = Some ap.
Proof.
  intros (c & u & a & s0 & h & I0 & ->) E.
  assert (exists B, Forall (fun x : env * op => e_now (fst x) <= B) h) as [B F].
  { clear E. induction h as [|[e o] h [B IH]]; [exists 0; constructor|].
    exists (N.max (e_now e) B). constructor; [simpl; lia|]. eapply Forall_impl; [exact IH|]. simpl. lia. }
  destruct (trail_run B h s0 F (trail_init B _ _ _ _ I0)) as [T _]. specialize (T t sp). rewrite E in T. exact T.
Qed.

(** ** C88: the same for collection approvals *)

Theorem C88_collection_approvals_from_log caller url_ok a s0 h now ow sp :
  init caller url_ok a = Some s0 -> Forall (fun x => e_now (fst x) <= now) h ->
  (collection_approved (run h s0) ow sp now <->
   exists ap, granted_collection (blocks (run h s0)) ow sp = Some ap /\ live_at now ap).
Proof.
  intros I0 F. rewrite collection_approved_live. apply (agrees_live now); [|lia].
  apply (trail_run now h s0 F (trail_init now _ _ _ _ I0)).
Qed.

Theorem C88_stored_collection_approval_logged s ow sp ap :
  reachable s -> collection_approval s ow sp = Some ap -> granted_collection (blocks s) ow sp = Some ap.
Proof.
  intros (c & u & a & s0 & h & I0 & ->) E.
  assert (exists B, Forall (fun x : env * op => e_now (fst x) <= B) h) as [B F].
  { clear E. induction h as [|[e o] h [B IH]]; [exists 0; constructor|].
    exists (N.max (e_now e) B). constructor; [simpl; lia|]. eapply Forall_impl; [exact IH|]. simpl. lia. }
  destruct (trail_run B h s0 F (trail_init B _ _ _ _ I0)) as [_ T]. specialize (T ow sp). rewrite E in T. exact T.
Qed.

(** ** Cases *)

(** After the approvals of [demo2_h]: bob's approval on token 1 and carol's for alice's collection, from the log alone;
    carol's has expired nine seconds later. *)
Example C87_case :
  Forall (fun x => e_now (fst x) <= t0 + 3000000000) demo2_h /\
  granted_token (blocks (run demo2_h demo0)) 1 (acct bob) =
    Some (mkAppr (acct bob) (acct alice) None (t0 + 1000000000) None) /\
  granted_token (blocks (run demo2_h demo0)) 2 (acct bob) = None /\
  granted_collection (blocks (run demo2_h demo0)) (acct alice) (acct carol) =
    Some (mkAppr (acct carol) (acct alice) (Some (t0 + 9000000000)) (t0 + 2000000000) None).
Proof. split; [repeat constructor; vm_compute; discriminate|]. vm_compute. auto. Qed.

(** A transfer by bob ends both, and a failing transfer_from by carol after the expiry cleans up hers: the log still
    shows it, expired. *)
Example C88_case :
  let h1 := demo2_h ++ [(from_ bob 3000000000, OTransferFrom [tfrom alice carol 1])] in
  let h2 := demo2_h ++ [(from_ carol 9000000000, OTransferFrom [tfrom alice carol 2])] in
  granted_token (blocks (run h1 demo0)) 1 (acct bob) = None /\
  granted_collection (blocks (run h1 demo0)) (acct alice) (acct carol) = None /\
  collection_approval (run h2 demo0) (acct alice) (acct carol) = None /\
  granted_collection (blocks (run h2 demo0)) (acct alice) (acct carol) =
    Some (mkAppr (acct carol) (acct alice) (Some (t0 + 9000000000)) (t0 + 2000000000) None).
Proof. vm_compute. auto. Qed.

Print Assumptions C87_token_approvals_from_log.
Print Assumptions C87_stored_token_approval_logged.
Print Assumptions C88_collection_approvals_from_log.
Print Assumptions C88_stored_collection_approval_logged.
