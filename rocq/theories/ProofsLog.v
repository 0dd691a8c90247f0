(** The transaction log as an audit trail of ownership. *)
From Verif Require Import Base ModelPrincipal ModelState ModelIcrc7 ModelIcrc37 ModelManagement ModelLifecycle
  ModelQueries ModelStep ProofsItems ProofsManage ProofsMicro Spec ProofsCore ProofsOwner.

Local Arguments N.of_nat : simpl never.

Lemma fmap_mint_tokens id l T :
  t_owner <$> mint_tokens id l T = fold_left (fun m p => <[fst p := mr_owner (snd p)]> m)
    (zip (count_from id (length l)) l) (t_owner <$> T).
Proof.
  revert id T. induction l as [|r l IH]; intros id T; simpl; [reflexivity|].
  rewrite IH, fmap_insert. reflexivity.
Qed.

Lemma replay_app l1 l2 : replay (l1 ++ l2) = fold_left replay_block l2 (replay l1).
Proof. apply fold_left_app. Qed.
Lemma replay_last_app l1 l2 : replay_last (l1 ++ l2) = fold_left replay_last_block l2 (replay_last l1).
Proof. apply fold_left_app. Qed.

Lemma blocks_snoc s i t : map snd (log s ++ [(i, t)]) = blocks s ++ [t].
Proof. unfold blocks. rewrite map_app. reflexivity. Qed.

Lemma snd_zip_le {A B} (l1 : list A) (l2 : list B) : map snd (zip l1 l2) = take (length l1) l2.
Proof.
  revert l2. induction l1 as [|a l1 IH]; intros [|b l2]; simpl; try reflexivity. f_equal. apply IH.
Qed.

Lemma replay_mints now id l M :
  (forall i o, M !! i = Some o -> i < id) ->
  fold_left replay_block (mint_txs now id l) (Some M) =
  Some (fold_left (fun m p => <[fst p := mr_owner (snd p)]> m) (zip (count_from id (length l)) l) M).
Proof.
  revert id M. induction l as [|r l IH]; intros id M H; [reflexivity|].
  simpl fold_left at 1. cbn [mint_txs]. simpl.
  assert (E : M !! id = None).
  { destruct (M !! id) eqn:X; [|reflexivity]. apply H in X. lia. }
  rewrite E. rewrite IH; [reflexivity|].
  intros i o. destruct (decide (id = i)) as [->|Hne]; [lia|].
  rewrite lookup_insert_ne by exact Hne. intros X. apply H in X. lia.
Qed.

Definition log_exact (s : state) : Prop := replay (blocks s) = Some (owners s).

Lemma log_exact_quiet s s' : quiet s s' -> log_exact s -> log_exact s'.
Proof. intros (w & n & ->) H. exact H. Qed.

Lemma log_exact_same s s' : tokens s' = tokens s -> log s' = log s -> log_exact s -> log_exact s'.
Proof. unfold log_exact, blocks, owners. intros -> ->. auto. Qed.

Lemma owners_lt s i o : wf s -> owners s !! i = Some o -> 1 <= i < last_id s.
Proof.
  intros W H. unfold owners in H. rewrite lookup_fmap in H. destruct (tokens s !! i) eqn:T; [|discriminate].
  eapply wf_lt; eauto.
Qed.

Lemma log_exact_micro e o s s' :
  wf s -> log_exact s -> micro e o s s' ->
  (forall l, o = OMint l -> (length l <= 1)%nat) -> log_exact s'.
Proof.
  intros W L H Hm. pose proof W as [W1 W2 W3].
  assert (snoc : forall i t M (T : gmap N token),
             log_exact s -> replay_block (Some (owners s)) t = Some M -> M = t_owner <$> T ->
             replay (map snd (log s ++ [(i, t)])) = Some (t_owner <$> T)).
  { intros i t M T E R ->. rewrite blocks_snoc, replay_app. unfold log_exact in E. rewrite E. exact R. }
  assert (own : forall i tok, tokens s !! i = Some tok -> owners s !! i = Some (t_owner tok)).
  { intros i tok T. unfold owners. rewrite lookup_fmap, T. reflexivity. }
  destruct H; open_quiet; try (destruct p, r); try exact L; unfold log_exact, blocks, owners; simpl.
  - pose proof (W1 _ _ H1) as Hid. eapply snoc; [exact L| |reflexivity]. unfold replay_block; simpl.
    rewrite (own _ _ H1), bool_decide_eq_true_2 by reflexivity. rewrite Hid, fmap_insert. reflexivity.
  - eapply snoc; [exact L|reflexivity|reflexivity].
  - eapply snoc; [exact L|reflexivity|reflexivity].
  - eapply snoc; [exact L|reflexivity|reflexivity].
  - eapply snoc; [exact L|reflexivity|reflexivity].
  - pose proof (W1 _ _ H1) as Hid. eapply snoc; [exact L| |reflexivity]. unfold replay_block; simpl.
    rewrite (own _ _ H1), bool_decide_eq_true_2 by assumption. rewrite Hid, fmap_insert. reflexivity.
  - specialize (Hm _ eq_refl). destruct idxs; [|simpl in *; lia]. simpl. rewrite app_nil_r. exact L.
  - rewrite map_app, snd_zip_le, take_ge by (rewrite mint_txs_length; lia).
    fold (blocks s). rewrite replay_app. unfold log_exact in L. rewrite L, replay_mints, fmap_mint_tokens; [reflexivity|].
    intros i o Ho. pose proof (owners_lt _ _ _ W Ho). lia.
  - eapply snoc; [exact L|reflexivity|reflexivity].
  - eapply snoc; [exact L| |reflexivity]. unfold replay_block; simpl.
    rewrite (own _ _ H0), bool_decide_eq_true_2 by reflexivity. rewrite fmap_delete. reflexivity.
Qed.

(** A mint that answers another error than the log's, or traps, changes nothing. *)
Lemma mint_noop e l s s' a :
  step e (OMint l) s = (s', a) -> (forall k, a <> ANat k) -> (forall m, a <> AErr (EStorageCanisterError m)) -> s' = s.
Proof.
  intros H Ha He. revert H. simpl. unfold mint, with_permission.
  destruct (has_permission _ _ _); [|intros [= <- _]; reflexivity].
  rewrite (with_lock_eq _ _ _ (commutes_mint e l)). destruct (decide _); [|intros [= <- _]; reflexivity].
  destruct (mint_body e l s) as [[s1 r]|] eqn:M; [|intros [= <- _]; reflexivity].
  destruct (mint_body_inv _ _ _ _ _ M) as
      [(-> & er' & -> & _)|(CM & Mx & Cap & m & idxs & n & Me & [(msg & -> & Hl & ->)|(-> & Hl & ->)])]; simpl.
  - intros [= <- _]. reflexivity.
  - intros [= _ <-]. destruct (He _ eq_refl).
  - intros [= _ <-]. destruct (Ha _ eq_refl).
Qed.

Lemma log_exact_step e o s s' a :
  wf s -> log_exact s -> step e o s = (s', a) ->
  (forall l m, o = OMint l -> a = AErr (EStorageCanisterError m) -> (length l <= 1)%nat) -> log_exact s'.
Proof.
  intros W L H Hm.
  assert (Hs : (forall l, o = OMint l -> (length l <= 1)%nat) -> log_exact s').
  { intros Hl. pose proof (step_inv (fun s => wf s /\ log_exact s) e o s) as X. rewrite H in X. apply X; [|auto].
    intros s1 s2 [W1 L1] M. split; [eapply wf_micro; eauto|eapply log_exact_micro; eauto]. }
  destruct (decide (is_mint o)) as [D|D].
  2: { apply Hs. intros l ->. destruct (D I). }
  destruct o; try contradiction. clear D.
  destruct a as [ |msg| |er| |k| ].
  4: destruct er as [ | | | | | | | | | | | |msg| | | | | | | ].
  all: try (assert (s' = s) as -> by (eapply mint_noop; [exact H| |]; discriminate); exact L).
  - apply Hs. intros l [= <-]. eapply Hm; reflexivity.
  - destruct (step_mint _ _ _ _ _ H) as (-> & _ & _ & _ & _ & _ & m & idxs & n & _ & Hl & ->).
    unfold log_exact, blocks, owners; simpl.
    rewrite map_app, snd_zip_le, take_ge by (rewrite mint_txs_length; lia).
    fold (blocks s). rewrite replay_app. unfold log_exact in L. rewrite L, replay_mints, fmap_mint_tokens; [reflexivity|].
    intros i o Ho. pose proof (owners_lt _ _ _ W Ho). lia.
Qed.

Lemma log_exact_trace h s :
  wf s -> log_exact s ->
  (forall ev l m, ev ∈ trace h s -> ev_op ev = OMint l -> ev_ans ev = AErr (EStorageCanisterError m) ->
     (length l <= 1)%nat) ->
  log_exact (run h s).
Proof.
  revert s. induction h as [|[e o] h IH]; intros s W L H; simpl; [exact L|].
  simpl in H. destruct (step e o s) as [s' a] eqn:St. simpl.
  assert (W' : wf s') by (pose proof (step_wf e o s W) as X; rewrite St in X; exact X).
  apply IH; [exact W'| |].
  - eapply log_exact_step; [exact W|exact L|exact St|]. intros l m -> ->.
    eapply (H (mkEv s e (OMint l) (AErr (EStorageCanisterError m)) s')); [left|reflexivity|reflexivity].
  - intros ev l m Hin. apply H. right. exact Hin.
Qed.

(** ** Without any condition: the last block about each id ever handed out tells its owner. *)
Definition log_last (s : state) : Prop := forall i, i < last_id s -> replay_last (blocks s) !! i = owners s !! i.

Lemma replay_last_mints now id l k M i :
  fold_left replay_last_block (take k (mint_txs now id l)) M !! i =
  if decide (id <= i < id + N.of_nat k) then match l !! N.to_nat (i - id) with
                                             | Some r => Some (mr_owner r) | None => M !! i end
  else M !! i.
Proof.
  revert id k M. induction l as [|r l IH]; intros id k M.
  - cbn [mint_txs]. rewrite take_nil. simpl. destruct (decide _); reflexivity.
  - destruct k as [|k]; [simpl; destruct (decide _); [lia|reflexivity]|].
    cbn [mint_txs take fold_left]. rewrite IH. unfold replay_last_block; simpl.
    destruct (decide (id = i)) as [->|Hne].
    + rewrite lookup_insert, N.sub_diag. simpl.
      destruct (decide (i + 1 <= i < i + 1 + N.of_nat k)); [lia|].
      destruct (decide (i <= i < i + N.of_nat (S k))); [reflexivity|lia].
    + rewrite lookup_insert_ne by exact Hne.
      destruct (decide (id + 1 <= i < id + 1 + N.of_nat k)); destruct (decide (id <= i < id + N.of_nat (S k)));
        try lia; [|reflexivity].
      replace (N.to_nat (i - id)) with (S (N.to_nat (i - (id + 1)))) by lia. reflexivity.
Qed.

Lemma log_last_micro e o s s' : wf s -> log_last s -> micro e o s s' -> log_last s'.
Proof.
  intros W L H. pose proof W as [W1 W2 W3].
  assert (snoc : forall k t j, j < last_id s -> tx_tid t <> Some j ->
             replay_last (map snd (log s ++ [(k, t)])) !! j = owners s !! j).
  { intros k t j Hj Ht. rewrite blocks_snoc, replay_last_app. simpl. unfold replay_last_block.
    destruct (tx_tid t) as [i|]; [|apply L; exact Hj]. assert (i <> j) by congruence.
    repeat case_bool_decide; simpl; try destruct (tx_to t);
      rewrite ?lookup_insert_ne, ?lookup_delete_ne by assumption; apply L; exact Hj. }
  assert (other : forall k t j, j < last_id s ->
             tx_btype t <> "7burn"%string -> tx_btype t <> "7mint"%string -> tx_btype t <> "7xfer"%string ->
             tx_btype t <> "37xfer"%string ->
             replay_last (map snd (log s ++ [(k, t)])) !! j = owners s !! j).
  { intros k t j Hj N1 N2 N3 N4. rewrite blocks_snoc, replay_last_app. simpl. unfold replay_last_block.
    rewrite !bool_decide_eq_false_2 by assumption. destruct (tx_tid t); apply L; exact Hj. }
  destruct H; open_quiet; try (destruct p, r); try exact L; unfold log_last, blocks, owners; simpl; intros j Hj;
    try (apply other; [exact Hj|discriminate..]).
  - pose proof (W1 _ _ H1) as Hid. rewrite fmap_insert. destruct (decide (ta_tid a = j)) as [<-|Hne].
    + rewrite blocks_snoc, replay_last_app. simpl. unfold replay_last_block; simpl.
      rewrite Hid, !lookup_insert. reflexivity.
    + rewrite snoc, lookup_insert_ne; [reflexivity|congruence|exact Hj|simpl; congruence].
  - pose proof (W1 _ _ H1) as Hid. rewrite fmap_insert. destruct (decide (tf_tid a = j)) as [<-|Hne].
    + rewrite blocks_snoc, replay_last_app. simpl. unfold replay_last_block; simpl.
      rewrite Hid, !lookup_insert. reflexivity.
    + rewrite snoc, lookup_insert_ne; [reflexivity|congruence|exact Hj|simpl; congruence].
  - rewrite map_app, snd_zip_le. fold (blocks s). rewrite replay_last_app, replay_last_mints.
    destruct (decide _); [lia|]. apply L. exact Hj.
  - rewrite map_app, snd_zip_le. fold (blocks s). rewrite replay_last_app, replay_last_mints.
    rewrite lookup_fmap, mint_tokens_lookup. unfold nlen in *. rewrite H4.
    destruct (decide _) as [D|D].
    + destruct (lookup_lt_is_Some_2 l (N.to_nat (j - last_id s))) as [r Hr]; [lia|]. rewrite Hr. reflexivity.
    + rewrite L by lia. unfold owners. rewrite lookup_fmap. reflexivity.
  - rewrite fmap_delete. destruct (decide (tid = j)) as [<-|Hne].
    + rewrite blocks_snoc, replay_last_app. simpl. unfold replay_last_block; simpl. rewrite !lookup_delete. reflexivity.
    + rewrite snoc, lookup_delete_ne; [reflexivity|congruence|exact Hj|simpl; congruence].
Qed.

Lemma log_last_reachable s : reachable s -> log_last s.
Proof.
  intros (c & u & a & s0 & h & Hi & ->).
  enough (wf (run h s0) /\ log_last (run h s0)) by tauto.
  apply (run_inv (fun s => wf s /\ log_last s)).
  - intros e o s1 s2 [W L] M. split; [eapply wf_micro|eapply log_last_micro]; eauto.
  - split; [eapply init_wf; eauto|]. destruct (init_last_id _ _ _ _ Hi) as (_ & T & _ & _ & _ & _ & _ & _ & _ & Lg & _).
    intros i _. unfold blocks, owners. rewrite Lg, T. simpl. rewrite fmap_empty. reflexivity.
Qed.
