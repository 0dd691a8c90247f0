(** C176: the blocks about a token are an unbroken chain of custody. *)
From Verif Require Import Base ModelPrincipal ModelState ModelIcrc7 ModelIcrc37 ModelManagement ModelLifecycle
  ModelQueries ModelStep ProofsItems ProofsManage ProofsMicro ProofsCore ProofsOwner Spec ProofsLog Scenario PropertiesLedger PropertiesBooks.
Local Open Scope N_scope.

(** The blocks that tell of the whereabouts of token [i]: its mint, its transfers, its burn. *)
Definition about (i : N) (t : tx) : Prop :=
  tx_tid t = Some i /\
  (tx_btype t = "7mint" \/ tx_btype t = "7xfer" \/ tx_btype t = "37xfer" \/ tx_btype t = "7burn")%string.
Global Instance about_dec i t : Decision (about i t).
Proof. unfold about. apply _. Defined.
(** The papers of token [i], oldest first. *)
Definition papers (i : N) (l : list tx) : list tx := filter (about i) l.

(** Who has the token after a block. *)
Definition leaves_with (t : tx) : option account :=
  if bool_decide (tx_btype t = "7burn"%string) then None else tx_to t.
(** Papers in order: first the mint and only there, each later block hands on what the block before left with somebody. *)
Definition unbroken (l : list tx) : Prop :=
  (forall t, l !! O = Some t -> tx_btype t = "7mint"%string) /\
  (forall n x y, l !! n = Some x -> l !! S n = Some y ->
     tx_btype y <> "7mint"%string /\ exists a f, leaves_with x = Some a /\ tx_from y = Some f /\ akey a = akey f).

Lemma papers_snoc i l t : papers i (l ++ [t]) = papers i l ++ (if bool_decide (about i t) then [t] else []).
Proof. unfold papers. rewrite filter_app, filter_cons, filter_nil. case_bool_decide; case_decide; tauto. Qed.
Lemma last_leaves l t : (last (l ++ [t])) ≫= leaves_with = leaves_with t.
Proof. rewrite last_snoc. reflexivity. Qed.

Lemma unbroken_snoc l t :
  unbroken l ->
  (l = [] /\ tx_btype t = "7mint"%string \/
   tx_btype t <> "7mint"%string /\ exists a f, last l ≫= leaves_with = Some a /\ tx_from t = Some f /\ akey a = akey f) ->
  unbroken (l ++ [t]).
Proof.
  intros [F K] H. split.
  - intros x X. destruct H as [[-> B]|[_ (a & f & A & _)]]; [injection X as <-; exact B|].
    destruct l as [|y l]; [discriminate A|]. apply F. exact X.
  - intros n x y X Y. destruct (decide (S n < length l)%nat) as [Lt|Ge].
    { rewrite lookup_app_l in X, Y by lia. eapply K; eauto. }
    assert (E : (S n = length l)%nat). { apply lookup_lt_Some in Y. rewrite app_length in Y. simpl in Y. lia. }
    rewrite lookup_app_r in Y by lia. rewrite E, Nat.sub_diag in Y. injection Y as <-.
    rewrite lookup_app_l in X by lia.
    destruct H as [[-> _]|[B (a & f & A & T & Q)]]; [discriminate E|]. split; [exact B|]. exists a, f.
    rewrite last_lookup, <- E in A. simpl in A. rewrite X in A. auto.
Qed.

(** The numbers of the tokens whose mint is told, in the order of the log. *)
Definition births (l : list tx) : list N :=
  omap (fun t => if bool_decide (tx_btype t = "7mint"%string) then tx_tid t else None) l.
Lemma births_app l l' : births (l ++ l') = births l ++ births l'.
Proof. apply omap_app. Qed.
Lemma births_in i t l : t ∈ l -> about i t -> tx_btype t = "7mint"%string -> i ∈ births l.
Proof.
  intros H [T _] B. unfold births. apply elem_of_list_omap. exists t. split; [exact H|].
  rewrite bool_decide_eq_true_2 by exact B. exact T.
Qed.

(** A log that can be replayed and tells each mint once has such papers for every token, and they end with the owner. *)
Lemma replay_custody i l m :
  replay l = Some m -> NoDup (births l) -> unbroken (papers i l) /\ last (papers i l) ≫= leaves_with = m !! i.
Proof.
  revert m. induction l as [|t l IH] using rev_ind; intros m H ND.
  - injection H as <-. split; [split; [intros t|intros n x y]; discriminate|]. reflexivity.
  - unfold replay in H. rewrite fold_left_app in H. simpl in H. fold (replay l) in H.
    destruct (replay l) as [m0|]; [|discriminate H].
    rewrite births_app in ND. apply NoDup_app in ND. destruct ND as (ND & New & _).
    destruct (IH m0 eq_refl ND) as (U & La). clear IH.
    rewrite papers_snoc. unfold replay_block in H.
    assert (other : ~ about i t -> m !! i = m0 !! i ->
      unbroken (papers i l ++ (if bool_decide (about i t) then [t] else [])) /\
      last (papers i l ++ (if bool_decide (about i t) then [t] else [])) ≫= leaves_with = m !! i).
    { intros N E. rewrite bool_decide_eq_false_2 by exact N. rewrite app_nil_r, E. auto. }
    destruct (bool_decide (tx_btype t = "7mint"%string)) eqn:B1; [apply bool_decide_eq_true in B1|apply bool_decide_eq_false in B1].
    { destruct (tx_tid t) as [j|] eqn:Ti; [|discriminate]. destruct (tx_to t) as [o|] eqn:To; [|discriminate].
      destruct (m0 !! j) eqn:L; [discriminate|]. injection H as <-.
      destruct (decide (j = i)) as [->|Ne].
      2:{ apply other; [intros [X _]; congruence|]. apply lookup_insert_ne. exact Ne. }
      rewrite bool_decide_eq_true_2 by (split; [exact Ti|auto]).
      rewrite last_leaves, lookup_insert. split.
      - apply unbroken_snoc; [exact U|]. left. split; [|exact B1].
        destruct (papers i l) as [|x p] eqn:P; [reflexivity|]. exfalso.
        assert (X : x ∈ papers i l) by (rewrite P; left). apply elem_of_list_filter in X. destruct X as [Ab X].
        apply (New i); [apply (births_in i x l X Ab), U; reflexivity|].
        unfold births. simpl. rewrite bool_decide_eq_true_2 by exact B1. rewrite Ti. left.
      - unfold leaves_with. rewrite bool_decide_eq_false_2 by (rewrite B1; discriminate). exact To. }
    clear New.
    destruct (bool_decide (tx_btype t = "7xfer"%string) || bool_decide (tx_btype t = "37xfer"%string)) eqn:B2.
    { apply orb_true_iff in B2. rewrite !bool_decide_eq_true in B2.
      destruct (tx_tid t) as [j|] eqn:Ti; [|discriminate]. destruct (tx_from t) as [f|] eqn:Fr; [|discriminate].
      destruct (tx_to t) as [o|] eqn:To; [|discriminate]. destruct (m0 !! j) as [w|] eqn:L; [|discriminate].
      destruct (bool_decide (akey w = akey f)) eqn:E; [apply bool_decide_eq_true in E|discriminate]. injection H as <-.
      destruct (decide (j = i)) as [->|Ne].
      2:{ apply other; [intros [X _]; congruence|]. apply lookup_insert_ne. exact Ne. }
      rewrite bool_decide_eq_true_2 by (split; [exact Ti|tauto]).
      rewrite last_leaves, lookup_insert. split.
      - apply unbroken_snoc; [exact U|]. right. split; [exact B1|]. exists w, f. rewrite La, L, Fr. auto.
      - unfold leaves_with. rewrite bool_decide_eq_false_2; [exact To|]. destruct B2 as [-> | ->]; discriminate. }
    apply orb_false_iff in B2. rewrite !bool_decide_eq_false in B2. destruct B2 as [B2 B3].
    destruct (bool_decide (tx_btype t = "7burn"%string)) eqn:B4; [apply bool_decide_eq_true in B4|apply bool_decide_eq_false in B4].
    { destruct (tx_tid t) as [j|] eqn:Ti; [|discriminate]. destruct (tx_from t) as [f|] eqn:Fr; [|discriminate].
      destruct (m0 !! j) as [w|] eqn:L; [|discriminate]. destruct (bool_decide (akey w = akey f)) eqn:E; [apply bool_decide_eq_true in E|discriminate]. injection H as <-.
      destruct (decide (j = i)) as [->|Ne].
      2:{ apply other; [intros [X _]; congruence|]. apply lookup_delete_ne. exact Ne. }
      rewrite bool_decide_eq_true_2 by (split; [exact Ti|auto]).
      rewrite last_leaves, lookup_delete. split.
      - apply unbroken_snoc; [exact U|]. right. split; [exact B1|]. exists w, f. rewrite La, L, Fr. auto.
      - unfold leaves_with. rewrite bool_decide_eq_true_2 by exact B4. reflexivity. }
    injection H as <-. apply other; [|reflexivity]. intros [_ X]. tauto.
Qed.

(** The mints told are those of the numbers given out, each once and in order. *)
Definition numbered (s : state) : Prop := exists k, births (blocks s) = count_from 1 k /\ last_id s = 1 + N.of_nat k.

Lemma births_mints now id l : births (mint_txs now id l) = count_from id (length l).
Proof. revert id. induction l as [|r l IH]; intros id; [reflexivity|]. simpl. rewrite IH. reflexivity. Qed.

Lemma numbered_mint s idxs now l s' :
  numbered s -> length idxs = length l -> log s' = log s ++ zip idxs (mint_txs now (last_id s) l) ->
  last_id s' = last_id s + nlen l -> numbered s'.
Proof.
  intros (k & B & L) Hl El E. exists (k + length l)%nat. unfold blocks. rewrite El, E.
  rewrite map_app, snd_zip_le, take_ge by (rewrite mint_txs_length; lia).
  rewrite births_app. fold (blocks s). rewrite B, births_mints, count_from_app, L. split; [reflexivity|]. unfold nlen. lia.
Qed.

Lemma numbered_micro e o s s' :
  numbered s -> micro e o s s' -> (forall l, o = OMint l -> (length l <= 1)%nat) -> numbered s'.
Proof.
  intros L H Hm.
  assert (snoc : forall i t x, births [t] = [] -> log x = log s ++ [(i, t)] -> last_id x = last_id s -> numbered x).
  { intros i t x E Lx Ix. destruct L as (k & B & Lk). exists k. rewrite Ix. split; [|exact Lk]. unfold blocks. rewrite Lx, map_app, births_app.
    fold (blocks s). rewrite B. cbn [map snd]. rewrite E. apply app_nil_r. }
  destruct H; open_quiet; try (destruct p, r); try exact L; try (eapply snoc; [|reflexivity|reflexivity]; reflexivity).
  - specialize (Hm _ eq_refl). destruct idxs; [|simpl in *; lia]. destruct L as (k & B & Lk). exists k.
    unfold blocks. simpl. rewrite app_nil_r. auto.
  - eapply numbered_mint; [exact L| |reflexivity|reflexivity]. assumption.
Qed.

Lemma numbered_step e o s s' a :
  numbered s -> step e o s = (s', a) ->
  (forall l m, o = OMint l -> a = AErr (EStorageCanisterError m) -> (length l <= 1)%nat) -> numbered s'.
Proof.
  intros L H Hm.
  assert (Hs : (forall l, o = OMint l -> (length l <= 1)%nat) -> numbered s').
  { intros Hl. pose proof (step_inv numbered e o s) as X. rewrite H in X. apply X; [|exact L].
    intros s1 s2 L1 M. eapply numbered_micro; eauto. }
  destruct (decide (is_mint o)) as [D|D].
  2: { apply Hs. intros l ->. destruct (D Logic.I). }
  destruct o; try contradiction. clear D.
  destruct a as [ |msg| |er| |k| ].
  4: destruct er as [ | | | | | | | | | | | |msg| | | | | | | ].
  all: try (assert (s' = s) as -> by (eapply mint_noop; [exact H| |]; discriminate); exact L).
  - apply Hs. intros l [= <-]. eapply Hm; reflexivity.
  - destruct (step_mint _ _ _ _ _ H) as (-> & _ & _ & _ & _ & _ & m & idxs & n & _ & Hl & ->).
    eapply numbered_mint; [exact L|exact Hl|reflexivity|reflexivity].
Qed.

Lemma numbered_trace h s :
  numbered s ->
  (forall ev l m, ev ∈ trace h s -> ev_op ev = OMint l -> ev_ans ev = AErr (EStorageCanisterError m) ->
     (length l <= 1)%nat) ->
  numbered (run h s).
Proof.
  revert s. induction h as [|[e o] h IH]; intros s L H; simpl; [exact L|].
  simpl in H. destruct (step e o s) as [s' a] eqn:St. simpl. apply IH.
  - eapply numbered_step; [exact L|exact St|]. intros l m -> ->.
    eapply (H (mkEv s e (OMint l) (AErr (EStorageCanisterError m)) s')); [left|reflexivity|reflexivity].
  - intros ev l m Hin. apply H. right. exact Hin.
Qed.

(** ** C176 *)

(** A mint that the log cut off is told, and told again when the number is given out (C11). *)
Theorem C176_custody_refuted : exists s, reachable s /\ ~ unbroken (papers 1 (blocks s)).
Proof.
  pose (e := with_log (fun k _ => if k =? 0 then LOk 0 else LErr "full") (from_ admin 0)).
  exists (run [(e, OMint [mkMint (acct alice) None []; mkMint (acct bob) None []]); (from_ admin 1, mint3)] demo0).
  split; [apply demo_reachable|]. intros [_ K].
  destruct (K 0%nat _ _ ltac:(vm_compute; reflexivity) ltac:(vm_compute; reflexivity)) as [X _]. apply X. reflexivity.
Qed.
Print Assumptions C176_custody_refuted.

(** Without that the papers of every token are in order and end with its owner.  Missing: collections in which a mint of
    several tokens was cut off by the log. *)
Theorem C176_custody_partial caller url_ok a s0 h i :
  init caller url_ok a = Some s0 ->
  (forall ev l m, ev ∈ trace h s0 -> ev_op ev = OMint l -> ev_ans ev = AErr (EStorageCanisterError m) ->
     (length l <= 1)%nat) ->
  let p := papers i (blocks (run h s0)) in
  unbroken p /\ last p ≫= leaves_with = owner_of (run h s0) i /\ (p = [] <-> (i = 0 \/ last_id (run h s0) <= i)).
Proof.
  intros I H p.
  assert (N : numbered (run h s0)).
  { apply numbered_trace; [|exact H]. destruct (init_inv _ _ _ _ I) as (_ & _ & _ & _ & ->). exists 0%nat. split; reflexivity. }
  destruct N as (k & B & Lk).
  destruct (replay_custody i (blocks (run h s0)) (owners (run h s0))) as [U La].
  - eapply C11_log_replay_partial; eauto.
  - rewrite B. apply count_from_NoDup.
  - split; [exact U|]. split; [rewrite <- owners_lookup; exact La|]. fold p in U.
    assert (Iff : i ∈ births (blocks (run h s0)) <-> p <> []).
    { split.
      - intros X. unfold births in X. apply elem_of_list_omap in X. destruct X as (t & T & X). case_bool_decide as E; [|discriminate].
        intros P. assert (Y : t ∈ p). { apply elem_of_list_filter. split; [split; [exact X|auto]|exact T]. }
        rewrite P in Y. apply elem_of_nil in Y. exact Y.
      - intros P. destruct p as [|t r] eqn:E; [congruence|]. assert (T : t ∈ p) by (rewrite E; left).
        unfold p, papers in T. apply elem_of_list_filter in T. destruct T as [Ab T].
        apply (births_in i t _ T Ab), U. reflexivity. }
    rewrite B, count_from_elem in Iff. destruct p; [|split; [discriminate|]; intros X; exfalso; assert (1 <= i < 1 + N.of_nat k) by (apply Iff; discriminate); lia].
    split; [|reflexivity]. intros _. assert (~ 1 <= i < 1 + N.of_nat k) by (intros X; apply Iff in X; congruence). lia.
Qed.
Print Assumptions C176_custody_partial.

(** Token 3: minted for bob, given to carol, burned by carol. Token 1: minted for alice, who still has it. *)
Example C176_example :
  let h := demo1_h ++ [(from_ bob 1000000000, OTransfer [xfer carol 3]); (from_ carol 2000000000, OBurn 3)] in
  let l := blocks (run h demo0) in
  init admin (fun _ => true) demo_args = Some demo0 /\
  (forall ev l m, ev ∈ trace h demo0 -> ev_op ev = OMint l -> ev_ans ev = AErr (EStorageCanisterError m) ->
     (length l <= 1)%nat) /\
  map (fun t => (tx_btype t, tx_from t, tx_to t)) (papers 3 l) =
    [("7mint"%string, None, Some (acct bob)); ("7xfer"%string, Some (acct bob), Some (acct carol)); ("7burn"%string, Some (acct carol), None)] /\
  map (fun t => (tx_btype t, tx_to t)) (papers 1 l) = [("7mint"%string, Some (acct alice))] /\ papers 4 l = [] /\
  owner_of (run h demo0) 3 = None /\ owner_of (run h demo0) 1 = Some (acct alice) /\ last_id (run h demo0) = 4.
Proof.
  split; [apply demo0_init|]. split; [|splits; vm_compute; reflexivity].
  intros ev l m T O A. exfalso. revert ev T O A.
  match goal with |- context [trace ?h demo0] =>
    assert (F : Forall (fun x => match x with AErr (EStorageCanisterError _) => False | _ => True end) (map ev_ans (trace h demo0)))
      by (vm_compute; repeat constructor) end.
  rewrite Forall_forall in F. intros ev T O A. specialize (F (ev_ans ev)). rewrite A in F. apply F.
  apply elem_of_list_fmap. eauto.
Qed.

(** ** The same without any condition, from the last mint on *)

(** The papers of token [i] from the last mint that is told. *)
Definition since_block (i : N) (p : list tx) (t : tx) : list tx :=
  if bool_decide (about i t) then if bool_decide (tx_btype t = "7mint"%string) then [t] else p ++ [t] else p.
(** See [since_block]. *)
Definition since_mint (i : N) (l : list tx) : list tx := fold_left (since_block i) l [].

Lemma since_app i l l' : since_mint i (l ++ l') = fold_left (since_block i) l' (since_mint i l).
Proof. apply fold_left_app. Qed.

(** They are the end of the papers, and all of them when the mint is told once. *)
Lemma since_suffix i l : exists r, papers i l = r ++ since_mint i l.
Proof.
  induction l as [|t l [r IH]] using rev_ind; [exists []; reflexivity|].
  rewrite papers_snoc, since_app. simpl. unfold since_block. rewrite IH. case_bool_decide; [|exists r; apply app_nil_r].
  case_bool_decide; [exists (r ++ since_mint i l); reflexivity|exists r; rewrite app_assoc; reflexivity].
Qed.

(** Papers in order that end with [o]. *)
Definition in_order (p : list tx) (o : option account) : Prop := p <> [] /\ unbroken p /\ last p ≫= leaves_with = o.

Lemma in_order_snoc p w t f :
  in_order p (Some w) -> tx_btype t <> "7mint"%string -> tx_from t = Some f -> akey w = akey f -> in_order (p ++ [t]) (leaves_with t).
Proof.
  intros (N & U & La) B F K. split; [destruct p; discriminate|]. split; [|apply last_leaves].
  apply unbroken_snoc; [exact U|]. right. split; [exact B|]. exists w, f. auto.
Qed.

(** Every number given out has its papers in order, and they end with the owner. *)
Definition kept_papers (s : state) : Prop :=
  forall i, 1 <= i < last_id s -> in_order (since_mint i (blocks s)) (owners s !! i).

Lemma since_mints now id l k i p :
  fold_left (since_block i) (take k (mint_txs now id l)) p =
  if decide (id <= i < id + N.of_nat k) then match l !! N.to_nat (i - id) with
                                             | Some r => [mint_tx now i r] | None => p end
  else p.
Proof.
  revert id k p. induction l as [|r l IH]; intros id k p.
  - cbn [mint_txs]. rewrite take_nil. simpl. destruct (decide _); reflexivity.
  - destruct k as [|k]; [simpl; destruct (decide _); [lia|reflexivity]|].
    cbn [mint_txs take fold_left]. rewrite IH. unfold since_block.
    destruct (decide (id = i)) as [->|Hne].
    + rewrite N.sub_diag. simpl. rewrite (bool_decide_eq_true_2 (about i _)) by (split; [reflexivity|left; reflexivity]).
      repeat destruct (decide _); try lia; reflexivity.
    + rewrite (bool_decide_eq_false_2 (about i _)) by (intros [X _]; simpl in X; congruence).
      destruct (decide (id + 1 <= i < id + 1 + N.of_nat k)); destruct (decide (id <= i < id + N.of_nat (S k)));
        try lia; [|reflexivity].
      replace (N.to_nat (i - id)) with (S (N.to_nat (i - (id + 1)))) by lia. reflexivity.
Qed.

Lemma kept_micro e o s s' : wf s -> kept_papers s -> micro e o s s' -> kept_papers s'.
Proof.
  intros W L H. pose proof W as [W1 W2 W3].
  assert (snoc : forall i k t, since_mint i (map snd (log s ++ [(k, t)])) = since_block i (since_mint i (blocks s)) t).
  { intros i k t. rewrite map_app, since_app. reflexivity. }
  assert (other : forall i k t, 1 <= i < last_id s -> ~ about i t ->
             in_order (since_mint i (map snd (log s ++ [(k, t)]))) (owners s !! i)).
  { intros i k t Hi N. rewrite snoc. unfold since_block. rewrite bool_decide_eq_false_2 by exact N. apply L, Hi. }
  assert (handed : forall i k t w f r, leaves_with t = r -> 1 <= i < last_id s -> about i t -> tx_btype t <> "7mint"%string ->
             owners s !! i = Some w -> tx_from t = Some f -> akey w = akey f ->
             in_order (since_mint i (map snd (log s ++ [(k, t)]))) r).
  { intros i k t w f r <- Hi A B Ow F K. rewrite snoc. unfold since_block.
    rewrite bool_decide_eq_true_2, bool_decide_eq_false_2 by assumption.
    eapply in_order_snoc; [|exact B|exact F|exact K]. rewrite <- Ow. apply L, Hi. }
  assert (own : forall i tok, tokens s !! i = Some tok -> owners s !! i = Some (t_owner tok)).
  { intros i tok T. unfold owners. rewrite lookup_fmap, T. reflexivity. }
  assert (quietly : forall i k t, 1 <= i < last_id s -> tx_btype t ∉ ["7mint"; "7xfer"; "37xfer"; "7burn"]%string ->
             in_order (since_mint i (map snd (log s ++ [(k, t)]))) (owners s !! i)).
  { intros i k t Hi N. apply other; [exact Hi|]. intros [_ X]. apply N. rewrite !elem_of_cons. tauto. }
  assert (nq : forall b, b ∈ ["37approve"; "37approve_coll"; "37revoke"; "37revoke_coll"; "7update_token"]%string ->
             b ∉ ["7mint"; "7xfer"; "37xfer"; "7burn"]%string).
  { intros b B X. repeat (apply elem_of_cons in B; destruct B as [->|B];
      [repeat (apply elem_of_cons in X; destruct X as [X|X]; [discriminate X|]); inversion X|]). inversion B. }
  destruct H; open_quiet; try (destruct p, r); try exact L; unfold kept_papers, blocks, owners; simpl; intros j Hj.
  - pose proof (W1 _ _ H1) as Hid. rewrite fmap_insert, Hid. destruct (decide (ta_tid a = j)) as [<-|Ne].
    + rewrite lookup_insert. apply (handed (ta_tid a) i _ (t_owner nft) (t_owner nft)); [reflexivity|exact Hj|split; [reflexivity|simpl; auto]|discriminate|apply own; assumption|reflexivity|assumption || reflexivity].
    + rewrite lookup_insert_ne by exact Ne. apply other; [exact Hj|]. intros [X _]. simpl in X. congruence.
  - apply quietly; [exact Hj|]. apply nq. simpl. rewrite !elem_of_cons. tauto.
  - apply quietly; [exact Hj|]. apply nq. simpl. rewrite !elem_of_cons. tauto.
  - apply quietly; [exact Hj|]. apply nq. simpl. rewrite !elem_of_cons. tauto.
  - apply quietly; [exact Hj|]. apply nq. simpl. rewrite !elem_of_cons. tauto.
  - pose proof (W1 _ _ H1) as Hid. rewrite fmap_insert, Hid. destruct (decide (tf_tid a = j)) as [<-|Ne].
    + rewrite lookup_insert. apply (handed (tf_tid a) i _ (t_owner nft) (tf_from a)); [reflexivity|exact Hj|split; [reflexivity|simpl; auto]|discriminate|apply own; assumption|reflexivity|assumption || reflexivity].
    + rewrite lookup_insert_ne by exact Ne. apply other; [exact Hj|]. intros [X _]. simpl in X. congruence.
  - rewrite map_app, since_app. fold (blocks s).
    assert (E : map snd (zip idxs (mint_txs (e_now e) (last_id s) l)) = take (length idxs) (mint_txs (e_now e) (last_id s) l)).
    { apply snd_zip_le. }
    rewrite E, since_mints. destruct (decide _); [lia|]. apply L, Hj.
  - rewrite map_app, since_app. fold (blocks s).
    rewrite snd_zip_le. rewrite since_mints, lookup_fmap, mint_tokens_lookup.
    unfold nlen in *. destruct (decide (last_id s <= j < last_id s + N.of_nat (length idxs))) as [D|D].
    + destruct (decide _) as [D'|D']; [|exfalso; apply D'; rewrite <- H4; lia].
      destruct (lookup_lt_is_Some_2 l (N.to_nat (j - last_id s))) as [r R]; [lia|]. rewrite R. simpl.
      split; [discriminate|]. split; [|reflexivity]. split; [intros t [= <-]; reflexivity|]. intros [|n'] x y X Y; discriminate Y.
    + destruct (decide _) as [D'|D']; [exfalso; apply D; rewrite H4; lia|]. rewrite <- lookup_fmap. apply L. lia.
  - apply quietly; [exact Hj|]. apply nq. simpl. rewrite !elem_of_cons. tauto.
  - rewrite fmap_delete. destruct (decide (tid = j)) as [<-|Ne].
    + rewrite lookup_delete. apply (handed tid i _ (t_owner tok) (t_owner tok)); [reflexivity|exact Hj|split; [reflexivity|simpl; auto]|discriminate|apply own; assumption|reflexivity|assumption || reflexivity].
    + rewrite lookup_delete_ne by exact Ne. apply other; [exact Hj|]. intros [X _]. simpl in X. congruence.
Qed.

(** Whatever happened: the papers from the last mint on are in order and end with the owner. *)
Theorem C176_since_mint s i : reachable s -> 1 <= i < last_id s ->
  let p := since_mint i (blocks s) in
  p <> [] /\ unbroken p /\ last p ≫= leaves_with = owner_of s i /\ exists r, papers i (blocks s) = r ++ p.
Proof.
  intros (c & u & a & s0 & h & I & ->) Hi p.
  assert (K : kept_papers (run h s0)).
  { clear Hi p. assert (G : wf (run h s0) /\ kept_papers (run h s0)); [|apply G].
    induction h as [|[e o] h IH] using rev_ind.
    - split; [eapply init_wf; eauto|]. destruct (init_inv _ _ _ _ I) as (_ & _ & _ & _ & ->). intros j Hj. simpl in Hj. lia.
    - rewrite run_app. simpl. apply (step_inv (fun s => wf s /\ kept_papers s)); [|exact IH].
      intros s1 s2 [W L] M. split; [eapply wf_micro; eauto|eapply kept_micro; eauto]. }
  destruct (K i Hi) as (N & U & La). split; [exact N|]. split; [exact U|].
  split; [rewrite <- owners_lookup; exact La|]. apply since_suffix.
Qed.
Print Assumptions C176_since_mint.

(** After a mint that the log cut off, number 1 is told twice; the second time counts. *)
Example C176_since_example :
  let e := with_log (fun k _ => if k =? 0 then LOk 0 else LErr "full") (from_ admin 0) in
  let s := run [(e, OMint [mkMint (acct carol) None []; mkMint (acct bob) None []]); (from_ admin 1, mint3);
                (from_ alice 1000000000, OTransfer [xfer bob 1])] demo0 in
  reachable s /\ last_id s = 4 /\ owner_of s 1 = Some (acct bob) /\
  map (fun t => (tx_btype t, tx_to t)) (papers 1 (blocks s)) =
    [("7mint"%string, Some (acct carol)); ("7mint"%string, Some (acct alice)); ("7xfer"%string, Some (acct bob))] /\
  map (fun t => (tx_btype t, tx_to t)) (since_mint 1 (blocks s)) =
    [("7mint"%string, Some (acct alice)); ("7xfer"%string, Some (acct bob))].
Proof. split; [apply demo_reachable|]. splits; vm_compute; reflexivity. Qed.

(** ** C175 without any condition, token by token *)

Lemma unbroken_init l t : unbroken (l ++ [t]) -> unbroken l.
Proof.
  intros [F K]. split.
  - intros x X. apply F. apply lookup_app_l_Some. exact X.
  - intros n x y X Y. apply (K n x y); apply lookup_app_l_Some; assumption.
Qed.

Lemma unbroken_balances i who p :
  Forall (about i) p -> unbroken p -> p <> [] ->
  one (names (last p ≫= leaves_with) who) + went who p = came who p.
Proof.
  induction p as [|t p IH] using rev_ind; intros A U N; [congruence|]. clear N.
  apply Forall_app in A. destruct A as [A At]. assert (Ab : about i t) by (inversion At; assumption). destruct Ab as [_ Ab].
  rewrite last_leaves, came_snoc, went_snoc. unfold leaves_with.
  assert (D : p = [] \/ exists q x, p = q ++ [x]) by (destruct p as [|x q _] using rev_ind; eauto).
  destruct D as [->|(q & x & ->)].
  - assert (B : tx_btype t = "7mint"%string) by (apply U; reflexivity).
    rewrite bool_decide_eq_false_2 by (rewrite B; discriminate).
    rewrite (one_false (moves_out who t)) by (unfold moves_out; rewrite B; intros [[X|[X|X]] _]; discriminate X).
    rewrite (one_iff (moves_in who t) (names (tx_to t) who)) by (unfold moves_in; tauto). change (went who []) with 0. change (came who []) with 0. lia.
  - specialize (IH A (unbroken_init _ _ U) ltac:(destruct q; discriminate)). rewrite last_leaves in IH.
    destruct U as [_ K]. destruct (K (length q) x t) as [B (a & f & La & Fr & Ak)].
    { rewrite <- app_assoc. rewrite lookup_app_r by lia. rewrite Nat.sub_diag. reflexivity. }
    { rewrite lookup_app_r by (rewrite app_length; simpl; lia). rewrite app_length. simpl. rewrite Nat.add_1_r, Nat.sub_diag. reflexivity. }
    rewrite La in IH. rewrite (one_iff (names (Some a) who) (akey f = akey who)) in IH by (rewrite names_some, Ak; tauto).
    rewrite (one_iff (moves_out who t) (akey f = akey who)) by (unfold moves_out; rewrite Fr, names_some; tauto).
    case_bool_decide as Bu.
    + rewrite (one_false (moves_in who t)) by (unfold moves_in; rewrite Bu; intros [[X|[X|X]] _]; discriminate X).
      rewrite (one_false (names None who)) by (unfold names; discriminate). lia.
    + rewrite (one_iff (moves_in who t) (names (tx_to t) who)) by (unfold moves_in; tauto). lia.
Qed.

(** In the papers of a token an account appears once more as receiver than as giver if it is the owner, and equally often
    otherwise. *)
Theorem C175_token s i who : reachable s -> 1 <= i < last_id s ->
  let p := since_mint i (blocks s) in
  came who p = went who p + (if bool_decide (akey <$> owner_of s i = Some (akey who)) then 1 else 0).
Proof.
  intros R Hi p. destruct (C176_since_mint s i R Hi) as (N & U & La & r & E).
  assert (A : Forall (about i) p).
  { apply Forall_forall. intros t T. assert (X : t ∈ papers i (blocks s)) by (rewrite E; apply elem_of_app; right; exact T).
    apply elem_of_list_filter in X. apply X. }
  pose proof (unbroken_balances i who p A U N) as X. fold p in La. rewrite La in X. unfold one, names in X. lia.
Qed.
Print Assumptions C175_token.

(** Token 1 went from alice to bob and back, token 3 from bob to carol. *)
Example C175_token_example :
  let s := run (demo1_h ++ [(from_ alice 1000000000, OTransfer [xfer bob 1]); (from_ bob 2000000000, OTransfer [xfer alice 1]);
                            (from_ bob 3000000000, OTransfer [xfer carol 3])]) demo0 in
  reachable s /\ last_id s = 4 /\
  map (fun who => (came (acct who) (since_mint 1 (blocks s)), went (acct who) (since_mint 1 (blocks s)))) [alice; bob; carol]
    = [(2, 1); (1, 1); (0, 0)] /\
  map (fun who => (came (acct who) (since_mint 3 (blocks s)), went (acct who) (since_mint 3 (blocks s)))) [alice; bob; carol]
    = [(0, 0); (1, 1); (1, 0)].
Proof. split; [apply demo_reachable|]. splits; vm_compute; reflexivity. Qed.
