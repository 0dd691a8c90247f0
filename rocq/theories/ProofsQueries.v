(** Queries: paging, listings, agreement with the ledger. *)
From Verif Require Import Base ModelPrincipal ModelState ModelIcrc7 ModelIcrc37 ModelManagement ModelLifecycle
  ModelQueries ModelStep ProofsItems ProofsManage ProofsMicro Spec ProofsCore ProofsOwner ProofsApprovals.

(** ** Walking through pages of a list *)
Lemma last_take_drop {A} (L : list A) n j :
  (1 <= n)%nat -> (j < length L)%nat ->
  exists x, last (take n (drop j L)) = Some x /\ L !! (j + Nat.min n (length L - j) - 1)%nat = Some x.
Proof.
  intros Hn Hj.
  assert (Hl : length (take n (drop j L)) = Nat.min n (length L - j)) by (rewrite take_length, drop_length; reflexivity).
  set (k := Nat.min n (length L - j)) in *.
  assert (1 <= k)%nat by (unfold k; lia).
  rewrite last_lookup, Hl. rewrite lookup_take by (unfold k; lia). rewrite lookup_drop.
  replace (j + pred k)%nat with (j + k - 1)%nat by lia.
  destruct (lookup_lt_is_Some_2 L (j + k - 1)) as [x Hx]; [unfold k; lia|]. exists x. split; exact Hx.
Qed.

Lemma walk_list {A P} (q : nat -> option P -> option (list A)) (key : A -> P) (L : list A) (n : nat)
  (pos : option P -> nat) :
  (1 <= n)%nat -> (forall f prev, q f prev = Some (take n (drop (pos prev) L))) ->
  (forall j x, L !! j = Some x -> pos (Some (key x)) = S j) ->
  forall fuel prev, (pos prev <= length L)%nat -> (length L - pos prev < fuel)%nat ->
  walk q key fuel prev = Some (drop (pos prev) L).
Proof.
  intros Hn Hq Hp fuel. induction fuel as [|f IH]; intros prev Hl Hf; [lia|].
  simpl. rewrite Hq. destruct (decide (pos prev < length L)%nat) as [Lt|Ge].
  - destruct (last_take_drop L n (pos prev) Hn Lt) as (x & E1 & E2). rewrite E1.
    pose proof (Hp _ _ E2) as Hpos. rewrite IH; rewrite Hpos; [|lia|lia].
    f_equal. set (k := Nat.min n (length L - pos prev)) in *.
    assert (1 <= k)%nat by (unfold k; lia).
    replace (S (pos prev + k - 1)) with (pos prev + k)%nat by lia.
    rewrite <- drop_drop.
    assert (Et : take n (drop (pos prev) L) = take k (drop (pos prev) L)).
    { unfold k. destruct (decide (n <= length L - pos prev)%nat).
      - rewrite Nat.min_l by lia. reflexivity.
      - rewrite Nat.min_r by lia. rewrite !take_ge; [reflexivity|rewrite drop_length; lia..]. }
    rewrite Et. apply take_drop.
  - rewrite drop_ge by lia. rewrite take_nil. reflexivity.
Qed.

(** ** Pages of token ids *)
Lemma position_gt_spec prev L :
  StronglySorted N.lt L -> forall j x, L !! j = Some x -> prev = x -> position_gt prev L = S j.
Proof.
  intros HS. induction HS as [|y L HS IH HF]; intros j x Hj ->; [rewrite lookup_nil in Hj; discriminate|].
  destruct j as [|j]; simpl in *.
  - injection Hj as ->. rewrite N.ltb_irrefl. f_equal.
    destruct L as [|z L]; [reflexivity|]. inversion HF; subst. simpl. rewrite (proj2 (N.ltb_lt _ _)) by assumption. reflexivity.
  - rewrite Forall_forall in HF. pose proof (HF x (elem_of_list_lookup_2 _ _ _ Hj)) as Lt.
    rewrite (proj2 (N.ltb_ge _ _)) by lia. f_equal. eapply IH; eauto.
Qed.

Lemma position_gt_0 L : Forall (fun x => 1 <= x) L -> position_gt 0 L = 0%nat.
Proof. intros H. destruct L as [|x L]; [reflexivity|]. inversion H; subst. simpl. rewrite (proj2 (N.ltb_lt _ _)) by lia. reflexivity. Qed.

Global Instance N_le_total : Total N.le.
Proof. intros x y. destruct (N.le_gt_cases x y); [left|right]; lia. Qed.

Lemma sorted_lt l : NoDup l -> StronglySorted N.lt (merge_sort N.le l).
Proof.
  intros ND. pose proof (StronglySorted_merge_sort N.le l) as S.
  assert (ND' : NoDup (merge_sort N.le l)) by (rewrite merge_sort_Permutation; exact ND).
  induction S as [|x L S IH HF]; [constructor|]. apply NoDup_cons in ND'. destruct ND' as [Nx ND'].
  constructor; [auto|]. rewrite Forall_forall in *. intros y Hy. specialize (HF y Hy).
  assert (x <> y) by (intros ->; contradiction). lia.
Qed.

Lemma take_n_take {A} n (l : list A) : take_n n l = take (N.to_nat n) l.
Proof.
  unfold take_n, nlen. destruct (N.le_gt_cases n (N.of_nat (length l))).
  - rewrite N.min_l by lia. reflexivity.
  - rewrite N.min_r by lia. rewrite !take_ge; [reflexivity|lia..].
Qed.

Lemma walk_ids ids n :
  NoDup ids -> Forall (fun x => 1 <= x) ids -> 1 <= n ->
  forall fuel, (length ids < fuel)%nat ->
  walk (fun _ prev => Some (page_of ids prev n)) (fun x => x) fuel None = Some (merge_sort N.le ids).
Proof.
  intros ND Pos Hn fuel Hf. set (L := merge_sort N.le ids).
  assert (HL : L ≡ₚ ids) by apply merge_sort_Permutation.
  assert (HP : Forall (fun x => 1 <= x) L) by (rewrite HL; exact Pos).
  assert (Hlen : length L = length ids) by (rewrite HL; reflexivity).
  assert (H0 : position_gt 0 L = 0%nat) by (apply position_gt_0; exact HP).
  rewrite (walk_list _ (fun x => x) L (N.to_nat n) (fun prev => position_gt (default 0 prev) L)).
  - simpl. rewrite H0. reflexivity.
  - lia.
  - intros f prev. unfold page_of. fold L. rewrite take_n_take. reflexivity.
  - intros j x Hj. simpl. eapply position_gt_spec; [apply sorted_lt; exact ND|exact Hj|reflexivity].
  - simpl. rewrite H0. lia.
  - simpl. rewrite H0. lia.
Qed.

Lemma page_of_length ids prev n : (length (page_of ids prev n) <= N.to_nat n)%nat.
Proof. unfold page_of. rewrite take_n_take, take_length. lia. Qed.

(** The ids of the tokens; those of one account. *)
Lemma token_ids_spec s : NoDup (map fst (map_to_list (tokens s))) /\
  forall t, t ∈ map fst (map_to_list (tokens s)) <-> is_Some (owner_of s t).
Proof.
  split; [apply NoDup_fst_map_to_list|]. intros t. rewrite elem_of_list_fmap. unfold owner_of. split.
  - intros ([k v] & -> & H). apply elem_of_map_to_list in H. simpl. rewrite H. eauto.
  - intros [a H]. destruct (tokens s !! t) as [v|] eqn:E; [|discriminate].
    exists (t, v). split; [reflexivity|]. apply elem_of_map_to_list. exact E.
Qed.

Lemma fst_filter_NoDup {V} (P : N * V -> Prop) `{forall x, Decision (P x)} l :
  NoDup (map fst l) -> NoDup (map fst (filter P l)).
Proof.
  intros ND. induction l as [|x l IH]; [constructor|].
  simpl in ND. apply NoDup_cons in ND. destruct ND as [Nx ND].
  rewrite filter_cons. destruct (decide (P x)); [|auto]. simpl. constructor; [|auto].
  intros X. apply Nx. apply elem_of_list_fmap in X. destruct X as (y & E & Hy).
  apply elem_of_list_filter in Hy. apply elem_of_list_fmap. exists y. tauto.
Qed.

Lemma account_ids_spec s a : NoDup (tokens_ids_of_account s a) /\
  forall t, t ∈ tokens_ids_of_account s a <-> exists o, owner_of s t = Some o /\ akey o = akey a.
Proof.
  unfold tokens_ids_of_account. split.
  - apply fst_filter_NoDup. apply NoDup_fst_map_to_list.
  - intros t. rewrite elem_of_list_fmap. unfold owner_of. split.
    + intros ([k v] & -> & H). apply elem_of_list_filter in H. destruct H as [Hk H].
      apply elem_of_map_to_list in H. simpl in *. rewrite H. eauto.
    + intros (o & H & Ho). destruct (tokens s !! t) as [v|] eqn:E; [|discriminate]. simpl in H. injection H as <-.
      exists (t, v). split; [reflexivity|]. apply elem_of_list_filter. split; [exact Ho|].
      apply elem_of_map_to_list. exact E.
Qed.

Lemma page_size_asked s tk : page_size s tk = if asked s tk <? two32 then asked s tk else 100.
Proof.
  unfold asked, page_size, usize_try, default_take.
  replace (match tk with Some t => t | None => default 100 (c_default_take (cfg s)) end)
    with (match tk with Some n => n | None => match c_default_take (cfg s) with Some n => n | None => 100 end end)
    by (destruct tk, (c_default_take (cfg s)); reflexivity).
  destruct (_ <? two32); reflexivity.
Qed.

Lemma page_size_pos s tk : 1 <= asked s tk -> 1 <= page_size s tk <= asked s tk.
Proof.
  intros H. rewrite page_size_asked. destruct (asked s tk <? two32) eqn:E; [lia|].
  apply N.ltb_ge in E. unfold two32 in E. lia.
Qed.

(** ** Listings of approvals *)
Global Instance newer_total : Total newer.
Proof. intros x y. unfold newer. lia. Qed.
Global Instance newer_trans : Transitive newer.
Proof. intros x y z. unfold newer. lia. Qed.

Definition page_take (tk : option N) : N := match tk with Some n => if n <? two32 then n else 10 | None => 10 end.

Lemma page_take_eq tk : default 10 (match tk with Some n => usize_try n | None => Some 10 end) = page_take tk.
Proof. destruct tk as [n|]; simpl; [|reflexivity]. unfold usize_try. destruct (n <? two32); reflexivity. Qed.

Lemma approvals_page_first entries tk :
  exists rest, approvals_page entries None tk ++ rest = merge_sort newer (map listed_info entries) /\
    length (approvals_page entries None tk) = Nat.min (N.to_nat (page_take tk)) (length entries).
Proof.
  unfold approvals_page. rewrite page_take_eq, take_n_take. simpl. rewrite drop_0.
  eexists. split; [apply take_drop|].
  rewrite take_length, merge_sort_Permutation, map_length. reflexivity.
Qed.

Lemma position_spender_spec L :
  NoDup (map (fun i => akey (ai_spender i)) L) ->
  forall j x, L !! j = Some x -> position_spender (ai_spender x) L = Some j.
Proof.
  induction L as [|y L IH]; intros ND j x Hj; [rewrite lookup_nil in Hj; discriminate|].
  simpl in ND. apply NoDup_cons in ND. destruct ND as [Ny ND].
  destruct j as [|j]; simpl in *.
  - injection Hj as ->. rewrite (proj2 (acc_eqb_true _ _)) by reflexivity. reflexivity.
  - destruct (acc_eqb (ai_spender y) (ai_spender x)) eqn:E.
    + apply acc_eqb_true in E. destruct Ny. rewrite E. apply elem_of_list_fmap. exists x.
      split; [reflexivity|]. eapply elem_of_list_lookup_2; eauto.
    + rewrite (IH ND _ _ Hj). reflexivity.
Qed.

Lemma walk_approvals (es : nat -> list listed) L tk :
  (forall f, merge_sort newer (map listed_info (es f)) = L) ->
  NoDup (map (fun i => akey (ai_spender i)) L) -> 1 <= page_take tk ->
  forall fuel, (length L < fuel)%nat ->
  walk (fun f prev => Some (approvals_page (es f) prev tk)) ai_spender fuel None = Some L.
Proof.
  intros HL ND Hn fuel Hf.
  rewrite (walk_list _ ai_spender L (N.to_nat (page_take tk))
     (fun prev => match prev with
                  | Some sp => match position_spender sp L with Some n => S n | None => 0%nat end
                  | None => 0%nat end)).
  - reflexivity.
  - lia.
  - intros f prev. unfold approvals_page. rewrite page_take_eq, HL, take_n_take. reflexivity.
  - intros j x Hj. rewrite (position_spender_spec _ ND _ _ Hj). reflexivity.
  - simpl. lia.
  - simpl. lia.
Qed.

(** Sorting is unique when creation times differ. *)
Lemma sorted_newer_unique l1 l2 :
  NoDup (map ai_created l1) -> StronglySorted newer l1 -> StronglySorted newer l2 -> l1 ≡ₚ l2 -> l1 = l2.
Proof.
  intros ND S1. revert l2 ND. induction S1 as [|x l1 S1 IH F1]; intros l2 ND S2 P.
  - symmetry. apply Permutation_nil. exact P.
  - destruct S2 as [|y l2 S2 F2]; [symmetry in P; apply Permutation_nil in P; discriminate|].
    simpl in ND. apply NoDup_cons in ND. destruct ND as [Nx ND].
    assert (x = y) as ->.
    { assert (Hx : x ∈ y :: l2) by (rewrite <- P; left). assert (Hy : y ∈ x :: l1) by (rewrite P; left).
      apply elem_of_cons in Hx, Hy. destruct Hx as [->|Hx]; [reflexivity|]. destruct Hy as [->|Hy]; [reflexivity|].
      rewrite Forall_forall in F1, F2. specialize (F1 _ Hy). specialize (F2 _ Hx). unfold newer in *.
      exfalso. apply Nx. apply elem_of_list_fmap. exists y. split; [lia|exact Hy]. }
    f_equal. apply IH; auto. eapply Permutation_cons_inv. exact P.
Qed.

(** The key of an entry is its spender. *)
Lemma token_entry_spender s t m k ka ap :
  reachable s -> tok_appr s !! t = Some m -> m !! k = Some (ka, ap) -> akey (a_spender ap) = k.
Proof.
  intros (c & u & a & s0 & h & Hi & ->) Hm Hk.
  destruct (trace_tok_source _ _ _ _ _ _ _ Hm Hk) as [(m0 & ka0 & E1 & _)|(ev & l & rs & _ & _ & _ & S)].
  - apply init_inv in Hi. destruct Hi as (_ & _ & _ & _ & ->). simpl in E1. rewrite lookup_empty in E1. discriminate.
  - destruct S as (j & a' & i & ow & _ & _ & _ & S4 & -> & _). exact S4.
Qed.

Lemma spenders_NoDup (m : gmap acckey (account * approval)) :
  (forall k ka ap, m !! k = Some (ka, ap) -> akey (a_spender ap) = k) ->
  NoDup (map (fun i => akey (ai_spender i)) (map listed_info (map snd (map_to_list m)))).
Proof.
  intros H.
  assert (E : map (fun x : acckey * (account * approval) => akey (a_spender (snd (snd x)))) (map_to_list m)
            = map fst (map_to_list m)).
  { apply map_ext_in. intros [k [ka ap]] Hin. simpl. eapply H. apply elem_of_map_to_list. apply elem_of_list_In. exact Hin. }
  assert (E2 : map (fun i => akey (ai_spender i)) (map listed_info (map snd (map_to_list m)))
             = map (fun x : acckey * (account * approval) => akey (a_spender (snd (snd x)))) (map_to_list m))
    by (rewrite !map_map; reflexivity).
  rewrite E2, E. apply NoDup_fst_map_to_list.
Qed.

Lemma listed_shows (l : list (acckey * (account * approval))) :
  Forall2 shows (map listed_info (map snd l)) (map (fun x => snd (snd x)) l).
Proof. induction l as [|x l IH]; simpl; constructor; [repeat split|exact IH]. Qed.

Lemma shows_perm l l' aps : Forall2 shows l aps -> l ≡ₚ l' -> exists aps', aps ≡ₚ aps' /\ Forall2 shows l' aps'.
Proof.
  intros F P. revert aps F. induction P as [|x l l' P IH|x y l|l1 l2 l3 P1 IH1 P2 IH2]; intros aps F.
  - exists aps. auto.
  - apply Forall2_cons_inv_l in F. destruct F as (a & r & H1 & H2 & ->).
    destruct (IH _ H2) as (r' & P' & F'). exists (a :: r'). split; [constructor; exact P'|constructor; auto].
  - apply Forall2_cons_inv_l in F. destruct F as (a & r & H1 & H2 & ->).
    apply Forall2_cons_inv_l in H2. destruct H2 as (b & r' & H3 & H4 & ->).
    exists (b :: a :: r'). split; [constructor|constructor; [exact H3|constructor; [exact H1|exact H4]]].
  - destruct (IH1 _ F) as (a2 & P2' & F2). destruct (IH2 _ F2) as (a3 & P3 & F3).
    exists a3. split; [etransitivity; eauto|exact F3].
Qed.

Lemma entries_shows s t order :
  (forall x, order x ≡ₚ x) ->
  exists aps, aps ≡ₚ approvals_on s t /\
    Forall2 shows (merge_sort newer (map listed_info (order (token_approvals_entries s t)))) aps.
Proof.
  intros Ho. unfold approvals_on, token_approvals_entries.
  destruct (tok_appr s !! t) as [m|].
  - destruct (shows_perm _ (merge_sort newer (map listed_info (order (map snd (map_to_list m))))) _ (listed_shows (map_to_list m)))
      as (aps & P & F).
    + rewrite merge_sort_Permutation, Ho. reflexivity.
    + exists aps. split; [symmetry; exact P|exact F].
  - exists []. split; [reflexivity|]. assert (order [] = []) as -> by (apply Permutation_nil; symmetry; apply Ho). constructor.
Qed.

Lemma entries_shows_coll s ow order :
  (forall x, order x ≡ₚ x) ->
  exists aps, aps ≡ₚ approvals_of s ow /\
    Forall2 shows (merge_sort newer (map listed_info (order (collection_approvals_entries s ow)))) aps.
Proof.
  intros Ho. unfold approvals_of, collection_approvals_entries.
  destruct (col_appr s !! akey ow) as [m|].
  - destruct (shows_perm _ (merge_sort newer (map listed_info (order (map snd (map_to_list m))))) _ (listed_shows (map_to_list m)))
      as (aps & P & F).
    + rewrite merge_sort_Permutation, Ho. reflexivity.
    + exists aps. split; [symmetry; exact P|exact F].
  - exists []. split; [reflexivity|]. assert (order [] = []) as -> by (apply Permutation_nil; symmetry; apply Ho). constructor.
Qed.

(** ** icrc37_is_approved *)
Lemma is_approved_iff s now a ow :
  owner_of s (ia_tid a) = Some ow -> akey (mkAcc (acc_owner (ia_spender a)) (ia_from_sub a)) = akey (ia_spender a) ->
  collection_approval s (ia_spender a) (ia_spender a) = None ->
  (forall k ka ap m, col_appr s !! akey (ia_spender a) = Some m -> m !! k = Some (ka, ap) -> akey ka = k) ->
  is_approved s now a = true <->
  akey (ia_spender a) = akey ow \/ token_approved s (ia_tid a) (ia_spender a) now.
Proof.
  intros Ho Hf Hc Hk. unfold is_approved. rewrite Ho.
  match goal with |- _ || _ || ?b = true <-> _ => assert (b = false) as -> end.
  { apply not_true_is_false. intros X. apply existsb_exists in X. destruct X as ([k [ka ap]] & Hin & X).
    apply elem_of_list_In, elem_of_map_to_list in Hin. simpl in X. apply andb_true_iff in X. destruct X as [X1 X2].
    apply bool_decide_eq_true in X1, X2. unfold collection_approval in Hc.
    destruct (col_appr s !! akey (ia_spender a)) as [m|] eqn:E; [|simpl in Hin; rewrite lookup_empty in Hin; discriminate].
    simpl in Hin. assert (akey ka = akey (ia_spender a)) as Ek
      by (f_equal; destruct ka, (ia_spender a); simpl in *; congruence).
    rewrite (Hk _ _ _ _ eq_refl Hin) in Ek. subst k. rewrite Hin in Hc. discriminate. }
  rewrite orb_false_r, orb_true_iff, acc_eqb_true, Hf.
  change (match tok_appr s !! ia_tid a with
          | Some m => match m !! akey (ia_spender a) with
                      | Some (_, ap) => match a_expires ap with Some x => now <? x | None => true end
                      | None => false
                      end
          | None => false end) with (has_valid now (tok_appr s !! ia_tid a) (akey (ia_spender a))).
  rewrite has_valid_iff. unfold token_approved. split; intros [X|X]; auto.
Qed.

(** Keys of stored collection approvals. *)
Definition col_keys (s : state) : Prop :=
  forall k0 k ka ap m, col_appr s !! k0 = Some m -> m !! k = Some (ka, ap) -> akey ka = k /\ akey (a_spender ap) = k.

Lemma appmap_insert_keys sp ap m k ka x :
  appmap_insert sp ap m !! k = Some (ka, x) -> akey (a_spender ap) = akey sp ->
  (forall k ka ap, m !! k = Some (ka, ap) -> akey ka = k /\ akey (a_spender ap) = k) ->
  akey ka = k /\ akey (a_spender x) = k.
Proof.
  intros Hi Hs Hm. unfold appmap_insert in Hi. destruct (m !! akey sp) as [[k0 ap0]|] eqn:E.
  - apply lookup_insert_Some in Hi. destruct Hi as [[<- [= <- <-]]|[_ Hi]]; [|eauto].
    destruct (Hm _ _ _ E) as [-> _]. auto.
  - apply lookup_insert_Some in Hi. destruct Hi as [[<- [= <- <-]]|[_ Hi]]; eauto.
Qed.

Lemma col_keys_micro e o s s' : col_keys s -> micro e o s s' -> col_keys s'.
Proof.
  intros C H. unfold col_keys. micro_cases H; try exact C.
  - intros k0 k ka ap m. match goal with |- <[?x := _]> _ !! _ = _ -> _ => destruct (decide (x = k0)) as [E|Hne] end.
    + rewrite E, lookup_insert. intros [= <-] Hk. eapply appmap_insert_keys; [exact Hk|reflexivity|].
      intros k1 ka1 ap1 X. destruct (col_appr s !! k0) as [m0|] eqn:E0; simpl in X; [|rewrite lookup_empty in X; discriminate].
      eapply C; eauto.
    + rewrite lookup_insert_ne by exact Hne. apply C.
  - intros k0 k ka ap m0. match goal with |- <[?x := _]> _ !! _ = _ -> _ => destruct (decide (x = k0)) as [E|Hne] end.
    + rewrite E, lookup_insert. intros [= <-]. rewrite revoke_from_lookup. intros Hk.
      rewrite E in *. destruct (rc_spender a); [|discriminate]. destruct (decide _); [discriminate|]. eapply C; eauto.
    + rewrite lookup_insert_ne by exact Hne. apply C.
  - intros k0 k ka ap m X Hk. apply drop_expired_sub in X. destruct X as (m0 & X & Sub).
    eapply C; [exact X|]. eapply lookup_weaken; eauto.
  - intros k0 k ka ap m X Hk. apply lookup_delete_Some in X. destruct X as [_ X]. apply drop_expired_sub in X.
    destruct X as (m0 & X & Sub). eapply C; [exact X|]. eapply lookup_weaken; eauto.
Qed.

Lemma reachable_col_keys s : reachable s -> col_keys s.
Proof.
  intros (c & u & a & s0 & h & Hi & ->). apply run_inv.
  - intros. eapply col_keys_micro; eauto.
  - apply init_inv in Hi. destruct Hi as (_ & _ & _ & _ & ->). intros k0 k ka ap m X. simpl in X.
    rewrite lookup_empty in X. discriminate.
Qed.
