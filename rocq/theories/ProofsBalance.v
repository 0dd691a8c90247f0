(** The index of tokens by owner. *)
From Verif Require Import Base ModelPrincipal ModelState ModelIcrc7 ModelIcrc37 ModelManagement ModelLifecycle
  ModelQueries ModelStep ProofsItems ProofsManage ProofsMicro Spec ProofsCore ProofsOwner ProofsApprovals ProofsQueries.

(** Every list holds the tokens of the account and those burned while they were its own. *)
Record bal (B : list (N * account)) (s : state) : Prop := {
  bal_nodup : forall k, NoDup (default [] (by_owner s !! k));
  bal_mem : forall k i, i ∈ default [] (by_owner s !! k) <->
    (exists tok, tokens s !! i = Some tok /\ akey (t_owner tok) = k) \/ (exists o, (i, o) ∈ B /\ akey o = k);
  bal_gone : forall i o, (i, o) ∈ B -> tokens s !! i = None /\ i < last_id s;
  bal_once : NoDup (map fst B)
}.

Lemma bal_same B s s' :
  bal B s -> tokens s' = tokens s -> by_owner s' = by_owner s -> last_id s' = last_id s -> bal B s'.
Proof. intros [A1 A2 A3 A4] E1 E2 E3. split; rewrite ?E1, ?E2, ?E3; assumption. Qed.

Lemma mint_ids_of_elem k id l i :
  i ∈ mint_ids_of k id l <-> exists r, l !! N.to_nat (i - id) = Some r /\ id <= i /\ akey (mr_owner r) = k.
Proof.
  revert id. induction l as [|r l IH]; intros id; simpl.
  - rewrite elem_of_nil. split; [tauto|]. intros (r & H & _). rewrite lookup_nil in H. discriminate.
  - rewrite elem_of_app, IH. split.
    + intros [H|(x & H1 & H2 & H3)].
      * destruct (decide _) as [E|E]; [|apply elem_of_nil in H; destruct H].
        apply elem_of_list_singleton in H. subst i. exists r. rewrite N.sub_diag. simpl. split; [auto|]. split; [lia|exact E].
      * exists x. replace (N.to_nat (i - id)) with (S (N.to_nat (i - (id + 1)))) by lia. simpl. split; [exact H1|]. split; [lia|exact H3].
    + intros (x & H1 & H2 & H3). destruct (decide (i = id)) as [->|Hne].
      * left. rewrite N.sub_diag in H1. simpl in H1. injection H1 as ->. rewrite decide_True by exact H3. left.
      * right. exists x. replace (N.to_nat (i - id)) with (S (N.to_nat (i - (id + 1)))) in H1 by lia. simpl in H1.
        split; [exact H1|]. split; [lia|exact H3].
Qed.

Lemma mint_ids_of_nodup k id l : NoDup (mint_ids_of k id l).
Proof.
  revert id. induction l as [|r l IH]; intros id; simpl; [constructor|].
  apply NoDup_app. split; [destruct (decide _); repeat constructor; rewrite elem_of_nil; auto|]. split; [|apply IH].
  intros x Hx. destruct (decide _); [|apply elem_of_nil in Hx; destruct Hx].
  apply elem_of_list_singleton in Hx. subst x. rewrite mint_ids_of_elem. intros (y & _ & H & _). lia.
Qed.

Lemma bal_move B s s' nft to :
  wf s -> bal B s -> tokens s !! t_id nft = Some nft -> akey (t_owner nft) <> akey to ->
  last_id s' = last_id s ->
  tokens s' = <[t_id nft := mkTok (t_id nft) to]> (tokens s) ->
  by_owner s' = (let b1 := <[akey to := default [] (by_owner s !! akey to) ++ [t_id nft]]> (by_owner s) in
     <[akey (t_owner nft) := filter (fun i => i <> t_id nft) (default [] (b1 !! akey (t_owner nft)))]> b1) ->
  bal B s'.
Proof.
  intros W [A1 A2 A3 A4] T Hne L E1 E2.
  assert (By : forall k, default [] (by_owner s' !! k) =
     if decide (k = akey (t_owner nft)) then filter (fun i => i <> t_id nft) (default [] (by_owner s !! k))
     else if decide (k = akey to) then default [] (by_owner s !! k) ++ [t_id nft] else default [] (by_owner s !! k)).
  { intros k. rewrite E2. cbn zeta. destruct (decide (k = akey (t_owner nft))) as [->|H1].
    - rewrite lookup_insert, lookup_insert_ne by congruence. reflexivity.
    - rewrite lookup_insert_ne by congruence. destruct (decide (k = akey to)) as [->|H2].
      + rewrite lookup_insert. reflexivity.
      + rewrite lookup_insert_ne by congruence. reflexivity. }
  assert (Nb : forall o, (t_id nft, o) ∈ B -> False).
  { intros o Ho. destruct (A3 _ _ Ho) as [X _]. congruence. }
  split.
  - intros k. rewrite By. destruct (decide _) as [->|H1]; [apply NoDup_filter; apply A1|].
    destruct (decide _) as [->|H2]; [|apply A1]. apply NoDup_app. split; [apply A1|]. split.
    + intros x Hx Hx2. apply elem_of_list_singleton in Hx2. subst x. apply A2 in Hx.
      destruct Hx as [(tok & X1 & X2)|(o & X1 & _)]; [|eapply Nb; eauto]. congruence.
    + repeat constructor. rewrite elem_of_nil. auto.
  - intros k i. rewrite By, E1. destruct (decide (k = akey (t_owner nft))) as [->|H1].
    + rewrite elem_of_list_filter, A2. destruct (decide (t_id nft = i)) as [<-|Hi].
      * rewrite lookup_insert. split; [tauto|]. intros [(tok & [= <-] & X)|(o & X & _)]; [simpl in X; congruence|destruct (Nb _ X)].
      * rewrite lookup_insert_ne by exact Hi. split; [tauto|]. intros X. split; [congruence|exact X].
    + destruct (decide (k = akey to)) as [->|H2].
      * rewrite elem_of_app, elem_of_list_singleton, A2. destruct (decide (t_id nft = i)) as [<-|Hi].
        -- rewrite lookup_insert. split; [|auto]. intros _. left. eexists. split; [reflexivity|reflexivity].
        -- rewrite lookup_insert_ne by exact Hi. split; [|auto]. intros [X|X]; [exact X|congruence].
      * rewrite A2. destruct (decide (t_id nft = i)) as [<-|Hi].
        -- rewrite lookup_insert. split.
           ++ intros [(tok & X1 & X2)|X]; [congruence|auto].
           ++ intros [(tok & [= <-] & X)|X]; [simpl in X; congruence|auto].
        -- rewrite lookup_insert_ne by exact Hi. tauto.
  - intros i o Ho. rewrite E1, L. destruct (A3 _ _ Ho) as [X1 X2]. split; [|exact X2].
    rewrite lookup_insert_ne; [exact X1|]. intros <-. eapply Nb; eauto.
  - exact A4.
Qed.

Lemma bal_micro B e o s s' : wf s -> bal B s -> micro e o s s' -> ~ is_burn o -> bal B s'.
Proof.
  intros W Bs H Hb. pose proof Bs as [A1 A2 A3 A4].
  micro_cases H; try (eapply bal_same; [exact Bs|reflexivity..]; fail).
  - pose proof (wf_id _ W _ _ H1) as Hid. rewrite <- Hid in H1.
    eapply bal_move; [exact W|exact Bs|exact H1| |reflexivity..]. assumption.
  - pose proof (wf_id _ W _ _ H1) as Hid. rewrite <- Hid in H1.
    eapply bal_move; [exact W|exact Bs|exact H1| |reflexivity..]. congruence.
  - assert (Fresh : forall k i, i ∈ default [] (by_owner s !! k) -> i < last_id s).
    { intros k i Hi. apply A2 in Hi. destruct Hi as [(tok & X & _)|(o & X & _)].
      - eapply wf_lt; eauto.
      - apply A3 in X. tauto. }
    split; simpl.
    + intros k. rewrite mint_lists_lookup. apply NoDup_app. split; [apply A1|]. split; [|apply mint_ids_of_nodup].
      intros x Hx Hx2. apply mint_ids_of_elem in Hx2. destruct Hx2 as (r & _ & X & _). specialize (Fresh _ _ Hx). lia.
    + intros k i. rewrite mint_lists_lookup, elem_of_app, mint_ids_of_elem, A2, mint_tokens_lookup.
      destruct (decide _) as [D|D].
      * split.
        -- intros [[(tok & X & _)|(o & X & _)]|(r & X1 & X2 & X3)].
           ++ pose proof (wf_lt _ W _ _ X). lia.
           ++ apply A3 in X. lia.
           ++ left. rewrite X1. simpl. eexists. split; [reflexivity|exact X3].
        -- intros [(tok & X1 & X2)|X]; [|auto]. right.
           destruct (l !! N.to_nat (i - last_id s)) as [r|]; [|discriminate]. simpl in X1. injection X1 as <-.
           exists r. split; [reflexivity|]. split; [lia|exact X2].
      * split; [|auto]. intros [X|(r & X1 & X2 & X3)]; [exact X|]. exfalso. apply D. split; [exact X2|].
        apply lookup_lt_Some in X1. unfold nlen. lia.
    + intros i o Ho. destruct (A3 _ _ Ho) as [X1 X2]. split; [|lia]. rewrite mint_tokens_lookup.
      destruct (decide _); [lia|exact X1].
    + exact A4.
  - destruct (Hb I).
Qed.

Lemma bal_step B e o s s' an :
  wf s -> bal B s -> step e o s = (s', an) -> bal (B ++ burned_from (mkEv s e o an s')) s'.
Proof.
  intros W Bs H. destruct (decide (is_burn o)) as [Hb|Hb].
  - destruct o; try destruct Hb.
    assert (D : an = AOk \/ an <> AOk) by (destruct an; auto; right; discriminate).
    destruct D as [->|Ha].
    + unfold burned_from. simpl. destruct (step_burn _ _ _ _ H) as (_ & tok & i & n & T & O & ->).
      rewrite owner_of_tokens, T. simpl. destruct Bs as [A1 A2 A3 A4]. split; simpl.
      * exact A1.
      * intros k j. rewrite A2. split.
        -- intros [(tk & X1 & X2)|(o & X1 & X2)].
           ++ destruct (decide (tid = j)) as [<-|Hne].
              ** right. exists (t_owner tok). split; [apply elem_of_app; right; left|congruence].
              ** left. exists tk. rewrite lookup_delete_ne by exact Hne. auto.
           ++ right. exists o. split; [apply elem_of_app; auto|exact X2].
        -- intros [(tk & X1 & X2)|(o & X1 & X2)].
           ++ apply lookup_delete_Some in X1. left. exists tk. tauto.
           ++ apply elem_of_app in X1. destruct X1 as [X1|X1]; [right; eauto|].
              apply elem_of_list_singleton in X1. injection X1 as -> ->. left. eauto.
      * intros j o X. apply elem_of_app in X. destruct X as [X|X].
        -- destruct (A3 _ _ X) as [X1 X2]. split; [|exact X2]. apply lookup_delete_None. auto.
        -- apply elem_of_list_singleton in X. injection X as -> ->. split; [apply lookup_delete|]. eapply wf_lt; eauto.
      * rewrite map_app. apply NoDup_app. split; [exact A4|]. split; [|repeat constructor; rewrite elem_of_nil; auto].
        intros x Hx Hx2. apply elem_of_list_singleton in Hx2. subst x. apply elem_of_list_fmap in Hx.
        destruct Hx as ([j o] & E & X). simpl in E. subst j. destruct (A3 _ _ X) as [X1 _]. congruence.
    + unfold burned_from. simpl. replace (match an with AOk => _ | _ => [] end) with (@nil (N * account))
        by (destruct an; congruence). rewrite app_nil_r.
      pose proof (step_burn_other e tid s) as Q. rewrite H in Q. simpl in Q. specialize (Q Ha). open_quiet.
      eapply bal_same; [exact Bs|reflexivity..].
  - unfold burned_from. simpl. replace (match o with OBurn t => _ | _ => [] end) with (@nil (N * account))
      by (destruct o; simpl in *; tauto). rewrite app_nil_r.
    assert (X : wf (fst (step e o s)) /\ bal B (fst (step e o s))).
    { apply (step_inv (fun s => wf s /\ bal B s)); [|auto]. intros s1 s2 [W1 B1] Hm.
      split; [eapply wf_micro; eauto|eapply bal_micro; eauto]. }
    rewrite H in X. apply X.
Qed.

Lemma bal_trace B h s : wf s -> bal B s -> bal (B ++ all_burned_from (trace h s)) (run h s).
Proof.
  revert B s. induction h as [|[e o] h IH]; intros B s W Bs; simpl.
  - unfold all_burned_from. simpl. rewrite app_nil_r. exact Bs.
  - destruct (step e o s) as [s1 an] eqn:S. simpl. unfold all_burned_from. simpl.
    fold (all_burned_from (trace h s1)). rewrite app_assoc. apply IH.
    + pose proof (step_wf e o s W) as X. rewrite S in X. exact X.
    + apply bal_step; auto.
Qed.

Lemma bal_init caller url_ok a s0 : init caller url_ok a = Some s0 -> bal [] s0.
Proof.
  intros Hi. apply init_inv in Hi. destruct Hi as (_ & _ & _ & _ & ->). split; simpl.
  - intros k. rewrite lookup_empty. constructor.
  - intros k i. rewrite lookup_empty. simpl. rewrite elem_of_nil. split; [tauto|].
    intros [(tok & X & _)|(o & X & _)]; [rewrite lookup_empty in X; discriminate|apply elem_of_nil in X; exact X].
  - intros i o X. apply elem_of_nil in X. destruct X.
  - constructor.
Qed.

Lemma bal_count B s a :
  bal B s ->
  tokens_balance_of s a =
    nlen (tokens_ids_of_account s a) + nlen (filter (fun x => akey (snd x) = akey a) B).
Proof.
  intros [A1 A2 A3 A4]. unfold tokens_balance_of.
  assert (E : match by_owner s !! akey a with Some l => nlen l | None => 0 end = nlen (default [] (by_owner s !! akey a)))
    by (destruct (by_owner s !! akey a); reflexivity).
  rewrite E. clear E. unfold nlen.
  assert (P : default [] (by_owner s !! akey a) ≡ₚ
              tokens_ids_of_account s a ++ map fst (filter (fun x => akey (snd x) = akey a) B)).
  { destruct (account_ids_spec s a) as [N1 N2]. apply NoDup_Permutation; [apply A1| |].
    - apply NoDup_app. split; [exact N1|]. split.
      + intros x Hx Hx2. apply N2 in Hx. destruct Hx as (o & X & _). rewrite owner_of_tokens in X.
        apply elem_of_list_fmap in Hx2. destruct Hx2 as ([j o'] & -> & Y). apply elem_of_list_filter in Y.
        destruct Y as [_ Y]. apply A3 in Y. simpl in X. destruct Y as [Y _]. rewrite Y in X. discriminate.
      + apply fst_filter_NoDup. exact A4.
    - intros i. rewrite elem_of_app, A2, N2.
      split.
      + intros [(tok & X1 & X2)|(o & X1 & X2)].
        * left. exists (t_owner tok). rewrite owner_of_tokens, X1. auto.
        * right. apply elem_of_list_fmap. exists (i, o). split; [reflexivity|]. apply elem_of_list_filter. auto.
      + intros [(o & X1 & X2)|X].
        * left. rewrite owner_of_tokens in X1. destruct (tokens s !! i) as [tok|]; [|discriminate].
          injection X1 as <-. eauto.
        * right. apply elem_of_list_fmap in X. destruct X as ([j o] & -> & X). apply elem_of_list_filter in X.
          simpl in *. exists o. tauto. }
  rewrite P, app_length, map_length. lia.
Qed.
