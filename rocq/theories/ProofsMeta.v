(** Lemmas about the metadata store. *)
From Verif Require Import Base ModelPrincipal ModelState ModelIcrc7 ModelIcrc37 ModelManagement ModelLifecycle
  ModelQueries ModelStep ProofsItems ProofsManage ProofsMicro Spec ProofsCore ProofsLock.

Lemma add_metadata_spec tid kvs m m' :
  add_metadata tid kvs m = Some m' ->
  (forall j, j <> tid -> m' !! j = m !! j) /\
  (forall k, default ∅ (m' !! tid) !! k =
     match last_value kvs k with Some v => Some v | None => default ∅ (m !! tid) !! k end).
Proof.
  revert m. induction kvs as [|[k v] r IH]; intros m H; simpl in H.
  - injection H as <-. split; auto.
  - unfold insert_data in H. destruct (_ && _); [|discriminate]. apply IH in H. destruct H as [H1 H2]. split.
    + intros j Hj. rewrite H1, lookup_insert_ne by auto. reflexivity.
    + intros k'. rewrite H2, lookup_insert. simpl. destruct (last_value r k'); [reflexivity|].
      case_bool_decide as E; [subst; apply lookup_insert|apply lookup_insert_ne; congruence].
Qed.

Lemma add_metadata_iff tid kvs m :
  is_Some (add_metadata tid kvs m) <->
  kvs = [] \/ (tid < 2 ^ 64 /\ forall kv, kv ∈ kvs -> encodable (snd kv) = true).
Proof.
  revert m. induction kvs as [|[k v] r IH]; intros m; simpl; [split; eauto|].
  unfold insert_data. destruct (encodable v) eqn:E; simpl.
  2: { split; [intros [? H]; discriminate|]. intros [H|[_ H]]; [discriminate|]. specialize (H (k, v)). simpl in H.
       rewrite H in E by left. discriminate. }
  destruct (tid <? two64) eqn:T; unfold two64 in T; change 18446744073709551616 with (2 ^ 64) in T.
  2: { apply N.ltb_ge in T. split; [intros [? H]; discriminate|]. intros [H|[H _]]; [discriminate|lia]. }
  apply N.ltb_lt in T. rewrite IH. split.
  - intros [->|[_ H]]; right; (split; [exact T|]); intros kv Hkv; apply elem_of_cons in Hkv.
    + destruct Hkv as [->|Hkv]; [exact E|apply elem_of_nil in Hkv; destruct Hkv].
    + destruct Hkv as [->|Hkv]; [exact E|auto].
  - intros [H|[_ H]]; [discriminate|]. right. split; [exact T|]. intros kv Hkv. apply H. right. exact Hkv.
Qed.

Lemma mint_metadata_spec l id m m' :
  mint_metadata id l m = Some m' ->
  (forall j, j < id \/ id + nlen l <= j -> m' !! j = m !! j) /\
  (forall i r k, l !! i = Some r -> default ∅ (m' !! (id + N.of_nat i)) !! k =
     match last_value (mr_meta r) k with Some v => Some v | None => default ∅ (m !! (id + N.of_nat i)) !! k end).
Proof.
  revert id m. induction l as [|r l IH]; intros id m H; simpl in H.
  - injection H as <-. split; [auto|]. intros i r k Hi. rewrite lookup_nil in Hi. discriminate.
  - destruct (add_metadata _ _ _) as [m1|] eqn:A; [|discriminate]. apply add_metadata_spec in A. destruct A as [A1 A2].
    apply IH in H. destruct H as [H1 H2]. unfold nlen in *. split.
    + intros j Hj. simpl in Hj. rewrite H1 by lia. apply A1. lia.
    + intros [|i] r' k Hi; simpl in Hi.
      * injection Hi as ->. rewrite N.add_0_r, H1 by lia. apply A2.
      * replace (id + N.of_nat (S i)) with (id + 1 + N.of_nat i) by lia. rewrite (H2 i r' k Hi), A1 by lia. reflexivity.
Qed.

Lemma sorted_pairs_lists m : lists (sorted_pairs m) (fun k => m !! k).
Proof.
  unfold lists, sorted_pairs. rewrite (merge_sort_Permutation key_le (map_to_list m)). split; [apply NoDup_fst_map_to_list|].
  intros k v. rewrite (merge_sort_Permutation key_le (map_to_list m)). apply elem_of_map_to_list.
Qed.

Lemma last_value_nodup x k :
  NoDup (map fst x) -> forall v, last_value x k = Some v <-> (k, v) ∈ x.
Proof.
  induction x as [|[k' v'] r IH]; intros ND v; simpl.
  - split; [discriminate|]. intros H. apply elem_of_nil in H. destruct H.
  - inversion ND as [|? ? Hn ND']; subst. specialize (IH ND'). rewrite elem_of_cons.
    destruct (last_value r k) as [w|] eqn:E.
    + rewrite <- IH. split; [auto|]. intros [[= -> ->]|H]; [|congruence].
      exfalso. apply Hn. pose proof (proj1 (IH w) eq_refl) as E'. apply (elem_of_list_fmap_1 fst) in E'. exact E'.
    + case_bool_decide as D.
      * subst. rewrite <- IH. split; [intros [= ->]; auto|intros [[= ->]|H]; [reflexivity|discriminate]].
      * rewrite <- IH. split; [discriminate|]. intros [[= -> ->]|H]; [congruence|discriminate].
Qed.

Lemma collect_map_spec kvs k : collect_map kvs !! k = last_value kvs k.
Proof.
  unfold collect_map. induction kvs as [|[k' v] r IH]; simpl; [apply lookup_empty|].
  rewrite list_to_map_app, lookup_union, IH. simpl.
  destruct (last_value r k) eqn:E; simpl.
  - destruct ((<[k' := v]> (∅ : gmap string value)) !! k) as [w|]; reflexivity.
  - case_bool_decide as D.
    + subst. rewrite lookup_insert. reflexivity.
    + rewrite lookup_insert_ne, lookup_empty by exact D. reflexivity.
Qed.

Lemma replace_metadata_spec tid kvs m m' :
  replace_metadata tid kvs m = Some m' ->
  (forall j, j <> tid -> m' !! j = m !! j) /\ (forall k, default ∅ (m' !! tid) !! k = last_value kvs k).
Proof.
  unfold replace_metadata. intros H. apply add_metadata_spec in H. destruct H as [H1 H2]. split.
  - intros j Hj. rewrite H1, lookup_delete_ne by auto. reflexivity.
  - intros k. rewrite H2, lookup_delete. simpl. rewrite lookup_empty.
    destruct (sorted_pairs_lists (collect_map kvs)) as [ND L].
    assert (E : last_value (sorted_pairs (collect_map kvs)) k = last_value kvs k).
    { apply option_eq. intros v. rewrite last_value_nodup by exact ND. rewrite L, collect_map_spec. reflexivity. }
    rewrite E. destruct (last_value kvs k); reflexivity.
Qed.

(** One elementary change and the metadata. *)
Lemma micro_metas e o s s' :
  wf s -> micro e o s s' ->
  metas s' = metas s \/
  (exists l, o = OMint l /\ has_permission s (e_caller e) PMinting = true /\ mint_metadata (last_id s) l (metas s) = Some (metas s')) \/
  (exists t kvs, o = OUpdateMeta t kvs /\ has_permission s (e_caller e) PUpdateMetadata = true /\ is_Some (tokens s !! t) /\
     replace_metadata t kvs (metas s) = Some (metas s')).
Proof.
  intros W H. micro_split H; simpl; auto;
    try (right; left; eexists; split; [reflexivity|]; split; assumption);
    try (right; right; do 2 eexists; split; [reflexivity|];
         match goal with T : tokens s !! _ = Some ?k |- _ => pose proof (wf_id s W _ _ T); rewrite T; subst; split; [assumption|split; [eauto|assumption]] end).
  left. destruct p, r; reflexivity.
Qed.

(** Metadata written only below the next id. *)
Definition meta_lt (s : state) : Prop := forall t, is_Some (metas s !! t) -> t < last_id s.

Lemma step_mint_err e l s s' er :
  step e (OMint l) s = (s', AErr er) ->
  s' = s /\ (forall m, er <> EStorageCanisterError m) \/
  (exists msg m idxs n, er = EStorageCanisterError msg /\ (length idxs < length l)%nat /\
     mint_metadata (last_id s) l (metas s) = Some m /\ has_permission s (e_caller e) PMinting = true /\ 
     s' = set_lcalls n (set_log (log s ++ zip idxs (mint_txs (e_now e) (last_id s) l)) (set_metas m s))).
Proof.
  simpl. unfold mint, with_permission. destruct (has_permission _ _ _) eqn:P; [|discriminate].
  rewrite (with_lock_eq _ _ _ (commutes_mint e l)).
  destruct (decide _) as [G|G]; [|intros [= <- <-]; left; split; [reflexivity|discriminate]].
  destruct (mint_body e l s) as [[s1 r]|] eqn:M; [|discriminate].
  destruct (mint_body_inv _ _ _ _ _ M) as
      [(-> & er' & -> & Her)|(CM & Mx & Cap & m & idxs & n & Me & [(msg & -> & Hl & ->)|(-> & Hl & ->)])];
    simpl; intros [= <- <-]; [auto|]. right. exists msg, m, idxs, n. auto.
Qed.

Lemma step_mint_none e l s s' an :
  step e (OMint l) s = (s', an) -> (forall k, an <> ANat k) -> (forall er, an <> AErr er) -> s' = s.
Proof.
  simpl. unfold mint, with_permission. destruct (has_permission _ _ _) eqn:P; [|intros [= <- <-]; auto].
  rewrite (with_lock_eq _ _ _ (commutes_mint e l)).
  destruct (decide _) as [G|G]; [|intros [= <- <-]; auto].
  destruct (mint_body e l s) as [[s1 [| |]]|] eqn:M; intros [= <- <-] H1 H2; auto.
  - destruct (mint_body_inv _ _ _ _ _ M) as
      [(-> & er' & ? & Her)|(CM & Mx & Cap & m & idxs & n & Me & [(msg0 & ? & Hl & ->)|(? & Hl & ->)])]; congruence.
  - destruct (H1 _ eq_refl).
  - destruct (H2 _ eq_refl).
Qed.

Lemma step_update e t kvs s s' an :
  wf s -> step e (OUpdateMeta t kvs) s = (s', an) ->
  (s' = s /\ (forall k, an <> ANat k) /\ (forall msg, an <> AErr (EStorageCanisterError msg))) \/
  (has_permission s (e_caller e) PUpdateMetadata = true /\ guards s = ∅ /\ is_Some (tokens s !! t) /\ exists m n,
     replace_metadata t kvs (metas s) = Some m /\
     ((exists msg, an = AErr (EStorageCanisterError msg) /\ s' = set_lcalls n (set_metas m s)) \/
      (exists i, an = ANat t /\
        s' = set_lcalls n (set_log (log s ++ [(i, update_meta_tx e t (meta_value t (metas s)) (meta_value t m))])
               (set_metas m s))))).
Proof.
  intros W. simpl. unfold update_nft_metadata, with_permission.
  destruct (has_permission _ _ _) eqn:P; [|intros [= <- <-]; left; repeat split; discriminate].
  rewrite (with_lock_eq _ _ _ (commutes_update e t kvs)).
  destruct (decide _) as [G|G]; [|intros [= <- <-]; left; repeat split; discriminate].
  destruct (update_nft_metadata_body e t kvs s) as [[s1 r]|] eqn:B; [|intros [= <- <-]; left; repeat split; discriminate].
  destruct (update_body_inv _ _ _ _ _ _ B) as [(-> & -> & T)|(tok & m & n & T & R & D)].
  - intros [= <- <-]. left. repeat split; discriminate.
  - pose proof (wf_id s W _ _ T) as I. rewrite I in R. intros S. right. split; [reflexivity|]. split; [exact G|].
    split; [eauto|]. exists m, n. split; [exact R|].
    destruct D as [(msg & -> & ->)|(i & -> & ->)]; injection S as <- <-; eauto.
Qed.

Lemma meta_lt_step e o s :
  wf s -> meta_lt s ->
  (forall l m, o = OMint l -> snd (step e o s) <> AErr (EStorageCanisterError m)) ->
  meta_lt (fst (step e o s)).
Proof.
  intros W L Hm. destruct (decide (is_mint o)) as [D|D].
  - destruct o; try contradiction. clear D. destruct (step e (OMint reqs) s) as [s' an] eqn:S. simpl in *.
    destruct an as [ |msg| |er| |k| ];
      try (assert (s' = s) as -> by (eapply step_mint_none; [exact S|discriminate|discriminate]); exact L).
    + destruct (step_mint_err _ _ _ _ _ S) as [[-> _]|(msg & m & idxs & n & -> & _)]; [exact L|].
      destruct (Hm _ msg eq_refl eq_refl).
    + destruct (step_mint _ _ _ _ _ S) as (-> & _ & _ & _ & _ & _ & m & idxs & n & M & Hl & ->).
      intros t Ht. simpl in *. apply mint_metadata_spec in M. destruct M as [M _].
      destruct (decide (t < last_id s + nlen reqs)); [assumption|]. rewrite M in Ht by lia. apply L in Ht. lia.
  - enough (wf (fst (step e o s)) /\ meta_lt (fst (step e o s))) by tauto.
    apply (step_inv (fun s => wf s /\ meta_lt s)); [|auto]. clear -D. intros s s' [W L] M. split; [eapply wf_micro; eauto|].
    assert (I : last_id s' = last_id s).
    { clear -M D. destruct M; open_quiet; try reflexivity; try (simpl in D; contradiction).
      destruct p, r; reflexivity. }
    destruct (micro_metas _ _ _ _ W M) as [E|[(l & -> & _)|(t & kvs & -> & _ & T & R)]].
    + unfold meta_lt. rewrite E, I. exact L.
    + simpl in D. contradiction.
    + intros j Hj. rewrite I. apply replace_metadata_spec in R. destruct R as [R _].
      destruct (decide (j = t)) as [->|Hne].
      * destruct T as [tok T]. eapply (wf_lt s W); eauto.
      * rewrite R in Hj by exact Hne. apply L. exact Hj.
Qed.

Lemma meta_lt_trace h s :
  wf s -> meta_lt s -> mints_logged (trace h s) -> meta_lt (run h s).
Proof.
  revert s. induction h as [|[e o] h IH]; intros s W L H; simpl; [exact L|].
  simpl in H. apply IH.
  - apply step_wf. exact W.
  - apply meta_lt_step; [exact W|exact L|]. intros l m ->. destruct (step e (OMint l) s) as [s' an] eqn:S. simpl.
    apply (H (mkEv s e (OMint l) an s') l m); [left|reflexivity].
  - destruct (step e o s) as [s' an] eqn:S. simpl. intros ev l m Hin. apply H. right. exact Hin.
Qed.
