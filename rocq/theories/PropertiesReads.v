(** Theorems about consent messages, upload listings, collection metadata, guarded reads and block types: C70 - C74. *)
From Verif Require Import Base ModelPrincipal ModelState ModelIcrc7 ModelIcrc37 ModelManagement ModelLifecycle
  ModelQueries ModelStep ModelConsent ProofsItems ProofsManage ProofsMicro Spec ProofsCore ProofsLog ProofsQueries ProofsLock
  ProofsMeta Scenario.
Local Open Scope N_scope.

(** ** C74 *)
Lemma announced_micro e o s s' :
  Forall (fun t => tx_btype t ∈ supported_blocks) (blocks s) -> micro e o s s' ->
  Forall (fun t => tx_btype t ∈ supported_blocks) (blocks s').
Proof.
  intros L H.
  assert (snoc : forall i t, tx_btype t ∈ supported_blocks ->
            Forall (fun t => tx_btype t ∈ supported_blocks) (map snd (log s ++ [(i, t)]))).
  { intros i t Ht. rewrite blocks_snoc. apply Forall_app. split; [exact L|]. constructor; [exact Ht|constructor]. }
  assert (mints : forall idxs now id l, Forall (fun t => tx_btype t ∈ supported_blocks)
            (map snd (log s ++ zip idxs (mint_txs now id l)))).
  { intros. rewrite map_app, snd_zip_le. apply Forall_app. split; [exact L|]. apply Forall_take.
    revert id. induction l; intros id; [constructor|]. constructor; [|auto]. cbn. set_solver. }
  destruct H; open_quiet; try (destruct p, r); try exact L; unfold blocks; simpl;
    try (apply snoc; cbn; set_solver); try apply mints.
Qed.

Theorem C74_announced_types s t : reachable s -> t ∈ blocks s -> tx_btype t ∈ supported_blocks.
Proof.
  intros (caller & u & a & s0 & h & Hi & ->). revert t. apply Forall_forall.
  apply (run_inv (fun s => Forall (fun t => tx_btype t ∈ supported_blocks) (blocks s))).
  - intros. eapply announced_micro; eauto.
  - destruct (init_inv _ _ _ _ Hi) as (_ & _ & _ & _ & ->). constructor.
Qed.
Print Assumptions C74_announced_types.

Example C74_example :
  let h := demo2_h ++ [(from_ bob 3000000000, OTransferFrom [tfrom alice carol 1]); (from_ alice 5000000000, OTransfer [xfer bob 2]);
                       (from_ bob 7000000000, OBurn 3); (from_ admin 8000000000, OUpdateMeta 1 [])] in
  reachable (run h demo0) /\
  map tx_btype (blocks (run h demo0)) =
    ["7mint"; "7mint"; "7mint"; "37approve"; "37approve_coll"; "37xfer"; "7xfer"; "7burn"; "7update_token"]%string.
Proof. splits; [apply demo_reachable|]. vm_compute. reflexivity. Qed.

(** ** C72 *)

(** The settings a collection announces: name of the entry and answer of the getter. *)
Definition announced (s : state) : list (string * option value) :=
  [("icrc7:symbol", Some (VText (icrc7_symbol s)));
   ("icrc7:name", Some (VText (icrc7_name s)));
   ("icrc7:total_supply", Some (VNat (total_supply s)));
   ("icrc7:description", VText <$> icrc7_description s);
   ("icrc7:logo", VText <$> icrc7_logo s);
   ("icrc7:supply_cap", VNat <$> icrc7_supply_cap s);
   ("icrc7:max_query_batch_size", VNat <$> icrc7_max_query_batch_size s);
   ("icrc7:max_update_batch_size", VNat <$> icrc7_max_update_batch_size s);
   ("icrc7:default_take_value", VNat <$> icrc7_default_take_value s);
   ("icrc7:max_take_value", VNat <$> icrc7_max_take_value s);
   ("icrc7:max_memo_size", VNat <$> icrc7_max_memo_size s);
   ("icrc7:atomic_batch_transfers", (fun b : bool => VText (if b then "true" else "false")) <$> icrc7_atomic_batch_transfers s);
   ("icrc7:tx_window", VNat <$> icrc7_tx_window s);
   ("icrc7:permitted_drift", VNat <$> icrc7_permitted_drift s)]%string.

Lemma sublist_NoDup {A} (a b : list A) : sublist a b -> NoDup b -> NoDup a.
Proof.
  intros H. induction H; [auto| |]; intros N; apply NoDup_cons in N; [|tauto].
  apply NoDup_cons. split; [|tauto]. intros X. apply (proj1 N). eapply elem_of_submseteq; [exact X|apply sublist_submseteq; exact H].
Qed.

Lemma elem_push_opt {A} k v key (f : A -> value) x :
  (k, v) ∈ push_opt key f x <-> (k, Some v) = (key, f <$> x).
Proof.
  destruct x as [a|]; simpl; [rewrite elem_of_list_singleton; split; congruence|].
  rewrite elem_of_nil. split; [contradiction|congruence].
Qed.

Lemma fst_push_opt {A} key (f : A -> value) x : sublist (map fst (push_opt key f x)) [key].
Proof. destruct x; simpl; [reflexivity|apply sublist_nil_l]. Qed.

Lemma leb_trans a b c : String.leb a b = true -> String.leb b c = true -> String.leb a c = true.
Proof.
  unfold String.leb. revert b c. induction a as [|x a IH]; intros [|y b] [|z c]; simpl; try congruence; [].
  unfold Ascii.compare.
  destruct (N.compare_spec (Ascii.N_of_ascii x) (Ascii.N_of_ascii y));
  destruct (N.compare_spec (Ascii.N_of_ascii y) (Ascii.N_of_ascii z)); try congruence; intros H1 H2;
  destruct (N.compare_spec (Ascii.N_of_ascii x) (Ascii.N_of_ascii z)); try reflexivity; try lia.
  eapply IH; eassumption.
Qed.
Global Instance key_le_trans : Transitive key_le.
Proof. intros a b c. apply leb_trans. Qed.
Global Instance key_le_total : Total key_le.
Proof. intros a b. apply String.leb_total. Qed.

Theorem C72_collection_metadata s :
  NoDup (map fst (icrc7_collection_metadata s)) /\
  StronglySorted key_le (icrc7_collection_metadata s) /\
  forall k v, (k, v) ∈ icrc7_collection_metadata s <-> (k, Some v) ∈ announced s.
Proof.
  unfold icrc7_collection_metadata. splits.
  - rewrite merge_sort_Permutation, !map_app.
    eapply (sublist_NoDup _ (map fst (announced s))).
    + cbn [map announced fst].
      change (?a :: ?b :: ?c :: ?l) with ([a; b; c] ++ l).
      apply sublist_app; [reflexivity|].
      repeat first [apply fst_push_opt | lazymatch goal with |- sublist (_ ++ _) (?a :: ?l) => change (a :: l) with ([a] ++ l) end;
                    apply sublist_app; [apply fst_push_opt|]].
    + apply (bool_decide_unpack _). vm_compute. exact I.
  - apply StronglySorted_merge_sort; apply _.
  - intros k v. rewrite merge_sort_Permutation. unfold announced.
    rewrite !elem_of_app, !elem_push_opt, !elem_of_cons, !elem_of_nil.
    assert (E : forall a b : string * value, a = b <-> (fst a, Some (snd a)) = (fst b, Some (snd b))).
    { intros [] []; simpl; split; congruence. }
    rewrite !(E (k, v)). cbn [fst snd]. unfold bool_text, icrc7_symbol, icrc7_name, icrc7_description, icrc7_logo, icrc7_supply_cap,
      icrc7_max_query_batch_size, icrc7_max_update_batch_size, icrc7_default_take_value, icrc7_max_take_value, icrc7_max_memo_size,
      icrc7_atomic_batch_transfers, icrc7_tx_window, icrc7_permitted_drift. tauto.
Qed.
Print Assumptions C72_collection_metadata.

Example C72_example :
  reachable demo1 /\
  icrc7_collection_metadata demo1 =
    [("icrc7:max_memo_size", VNat 10); ("icrc7:name", VText "Name"); ("icrc7:supply_cap", VNat 100);
     ("icrc7:symbol", VText "SYM"); ("icrc7:total_supply", VNat 3)]%string.
Proof. splits; [apply demo_reachable|]. vm_compute. reflexivity. Qed.

(** ** C73 *)
Theorem C73_has_permission s caller p perm :
  (query_has_permission s caller p perm = None <-> ~ holds s caller PManageAuthorities) /\
  (holds s caller PManageAuthorities ->
     exists b, query_has_permission s caller p perm = Some b /\ (b = true <-> holds s p perm)).
Proof.
  unfold query_has_permission. rewrite <- !holds_iff. destruct (has_permission s caller _); split; try (split; congruence); try congruence.
  intros _. eexists. split; [reflexivity|]. apply holds_iff.
Qed.
Print Assumptions C73_has_permission.

Theorem C73_user_permissions s caller p :
  (get_user_permissions s caller p = None <-> ~ holds s caller PManageAuthorities) /\
  (holds s caller PManageAuthorities -> get_user_permissions s caller p = Some (perms s !! p) /\
     forall q, holds s p q <-> exists l, get_user_permissions s caller p = Some (Some l) /\ q ∈ l).
Proof.
  unfold get_user_permissions. rewrite <- !holds_iff. destruct (has_permission s caller _); split; try (split; congruence); try congruence.
  intros _. split; [reflexivity|]. intros q. unfold holds. split; intros (l & H & Hq); exists l; (split; [congruence|exact Hq]).
Qed.
Print Assumptions C73_user_permissions.

Theorem C73_storage_canisters s caller :
  (get_all_storage_subcanisters s caller = None <-> ~ holds s caller PManageAuthorities) /\
  (holds s caller PManageAuthorities -> get_all_storage_subcanisters s caller = Some (subs s)).
Proof.
  unfold get_all_storage_subcanisters. rewrite <- !holds_iff.
  destruct (has_permission s caller _); split; try (split; congruence); congruence.
Qed.
Print Assumptions C73_storage_canisters.

Theorem C73_upload_status s caller path :
  (query_upload_status s caller path = None <-> ~ holds s caller PReadUploads) /\
  (holds s caller PReadUploads -> query_upload_status s caller path = Some (status s path)).
Proof.
  unfold query_upload_status. rewrite <- !holds_iff.
  destruct (has_permission s caller _); split; try (split; congruence); congruence.
Qed.
Print Assumptions C73_upload_status.

Theorem C73_uploads order s caller prev tk :
  (forall l, order l ≡ₚ l) ->
  (get_all_uploads order s caller prev tk = None <-> ~ holds s caller PReadUploads) /\
  (forall ans k st, get_all_uploads order s caller prev tk = Some ans -> ans !! k = Some st -> status s k = Some st).
Proof.
  intros Ho. unfold get_all_uploads. rewrite <- !holds_iff.
  destruct (has_permission s caller _); split; try (split; congruence); try congruence.
  intros ans k st [= <-] H. apply elem_of_list_to_map_2 in H. apply elem_of_list_fmap in H.
  destruct H as ([k' u] & [= -> ->] & H). unfold take_n, skip_n in H. apply elem_of_take in H. destruct H as (i & H & _).
  rewrite lookup_drop in H. apply elem_of_list_lookup_2 in H.
  rewrite Ho in H. apply elem_of_map_to_list in H. unfold status. rewrite H. reflexivity.
Qed.
Print Assumptions C73_uploads.

(** alice may read nothing, the administrator everything; a later page of one upload is empty. *)
Definition upload_demo : state := run [(from_ admin 1, OInitUpload "img" 10); (from_ admin 2, OReply 0 (RInitOk carol))] demo1.
Example C73_example :
  query_has_permission upload_demo alice bob PMinting = None /\ query_has_permission upload_demo admin bob PMinting = Some false /\
  query_has_permission upload_demo admin admin PMinting = Some true /\
  get_user_permissions upload_demo alice alice = None /\ get_user_permissions upload_demo admin alice = Some None /\
  get_user_permissions upload_demo admin admin = Some (Some all_permissions) /\
  get_all_storage_subcanisters upload_demo admin = Some [carol] /\ get_all_storage_subcanisters upload_demo bob = None /\
  query_upload_status upload_demo admin "img" = Some (Some UInit) /\ query_upload_status upload_demo admin "no" = Some None /\
  query_upload_status upload_demo bob "img" = None /\ get_all_uploads reverse upload_demo bob None None = None /\
  option_map map_to_list (get_all_uploads reverse upload_demo admin None None) = Some [("img"%string, UInit)].
Proof. splits; vm_compute; reflexivity. Qed.

(** ** C71 *)

(** The [i]-th page of size [n]. *)
Definition uploads_page order s caller (n : N) (tk : option N) (i : N) : option (gmap string upload_state) :=
  get_all_uploads order s caller (if i =? 0 then None else Some (i * n)) tk.

(** Missing: page sizes from 2^32 on (see [C71_huge_page_refuted]), and maps of 2^32 uploads, which no 32-bit canister
    can hold. *)
Theorem C71_paging_partial order s caller tk n :
  (forall l, order l ≡ₚ l) -> holds s caller PReadUploads ->
  n = default 100 tk -> 1 <= n < two32 -> N.of_nat (size (files s)) < two32 ->
  forall k st, status s k = Some st ->
  exists i, i * n < two32 /\ (exists page, uploads_page order s caller n tk i = Some page /\ page !! k = Some st) /\
    forall j page, j * n < two32 -> uploads_page order s caller n tk j = Some page -> is_Some (page !! k) -> j = i.
Proof.
  intros Ho Hh Hn Hb Hs k st Hk. apply holds_iff in Hh. unfold status in Hk.
  destruct (files s !! k) as [u|] eqn:F; [|discriminate]. injection Hk as <-.
  set (L := order (map_to_list (files s))).
  assert (HL : L ≡ₚ map_to_list (files s)) by apply Ho.
  assert (Hlen : length L = size (files s)) by (rewrite HL; reflexivity).
  assert (ND : NoDup (map fst L)) by (rewrite HL; apply NoDup_fst_map_to_list).
  assert (pg : forall i, i * n < two32 -> uploads_page order s caller n tk i =
            Some (list_to_map (map (fun kv => (fst kv, u_state (snd kv))) (take (N.to_nat n) (drop (N.to_nat (i * n)) L))))).
  { intros i Hi. unfold uploads_page, get_all_uploads. rewrite Hh.
    assert (E1 : default 0 (usize_try (default 0 (if i =? 0 then None else Some (i * n)))) = i * n).
    { destruct (N.eqb_spec i 0) as [->|]; [reflexivity|]. simpl. unfold usize_try.
      destruct (N.ltb_spec (i * n) two32); [reflexivity|lia]. }
    assert (E2 : default 100 (usize_try (default 100 tk)) = n).
    { rewrite <- Hn. unfold usize_try. destruct (N.ltb_spec n two32); [reflexivity|lia]. }
    rewrite E1, E2. fold L. rewrite take_n_take.
    assert (E3 : skip_n (i * n) L = drop (N.to_nat (i * n)) L).
    { unfold skip_n, nlen. destruct (N.le_gt_cases (i * n) (N.of_nat (length L))).
      - rewrite N.min_l by lia. reflexivity.
      - rewrite N.min_r by lia. rewrite !drop_ge; [reflexivity|lia..]. }
    rewrite E3. reflexivity. }
  assert (M : (k, u) ∈ L) by (rewrite HL; apply elem_of_map_to_list; exact F).
  apply elem_of_list_lookup in M. destruct M as (p & Hp).
  pose proof (lookup_lt_Some _ _ _ Hp) as Hlt.
  assert (inpage : forall i, i * n < two32 -> is_Some ((list_to_map (map (fun kv => (fst kv, u_state (snd kv)))
             (take (N.to_nat n) (drop (N.to_nat (i * n)) L))) : gmap string upload_state) !! k) -> i = N.of_nat p / n).
  { intros i Hi [st H]. apply elem_of_list_to_map_2 in H. apply elem_of_list_fmap in H.
    destruct H as ([k' u'] & [= <- _] & H). apply elem_of_list_lookup in H. destruct H as (q & H).
    apply lookup_take_Some in H. destruct H as [H Hq]. rewrite lookup_drop in H.
    assert (E : (N.to_nat (i * n) + q)%nat = p).
    { apply (NoDup_lookup (map fst L) _ _ k ND); rewrite list_lookup_fmap; [rewrite H|rewrite Hp]; reflexivity. }
    apply (N.div_unique _ _ _ (N.of_nat q)); lia. }
  assert (Hdm : N.of_nat p = n * (N.of_nat p / n) + N.of_nat p mod n) by (apply N.div_mod; lia).
  assert (Hmod : N.of_nat p mod n < n) by (apply N.mod_lt; lia).
  remember (N.of_nat p / n) as i eqn:Ei. remember (N.of_nat p mod n) as r eqn:Er. clear Ei Er.
  rewrite N.mul_comm in Hdm.
  assert (Hi : i * n < two32) by (rewrite <- Hlen in Hs; remember (i * n); lia).
  exists i. splits; [exact Hi| |].
  - eexists. split; [apply pg; exact Hi|]. apply elem_of_list_to_map_1.
    + rewrite map_map. simpl. change (NoDup (map fst (take (N.to_nat n) (drop (N.to_nat (i * n)) L)))).
      rewrite <- firstn_map, <- skipn_map. apply (sublist_NoDup _ (map fst L)); [|exact ND].
      etransitivity; [apply sublist_take|apply sublist_drop].
    + apply elem_of_list_fmap. exists (k, u). split; [reflexivity|].
      apply elem_of_list_lookup. exists (N.to_nat r). apply lookup_take_Some. rewrite lookup_drop.
      split; [|lia]. rewrite <- Hp. f_equal. lia.
  - intros j page Hj E X. rewrite pg in E by exact Hj. injection E as <-. apply inpage; assumption.
Qed.
Print Assumptions C71_paging_partial.

(** Three uploads read in pages of two. *)
Definition uploads_demo : state :=
  run [(from_ admin 1, OInitUpload "a" 10); (from_ admin 2, OReply 0 (RInitOk carol));
       (from_ admin 3, OInitUpload "b" 10); (from_ admin 4, OReply 1 (RInitOk carol));
       (from_ admin 5, OInitUpload "c" 10); (from_ admin 6, OReply 2 (RInitOk carol))] demo1.
Example C71_example :
  size (files uploads_demo) = 3%nat /\
  (fun m : gmap string upload_state => size m) <$> uploads_page reverse uploads_demo admin 2 (Some 2) 0 = Some 2%nat /\
  (fun m : gmap string upload_state => size m) <$> uploads_page reverse uploads_demo admin 2 (Some 2) 1 = Some 1%nat /\
  (fun m : gmap string upload_state => size m) <$> uploads_page reverse uploads_demo admin 2 (Some 2) 2 = Some 0%nat.
Proof. splits; vm_compute; reflexivity. Qed.

(** A page size of 2^32 does not fit a machine word: the start of the second page is read as 0, and the upload is shown
    on both pages. *)
Theorem C71_huge_page_refuted :
  exists s order n, reachable s /\ (forall l, order l ≡ₚ l) /\ 1 <= n /\ holds s admin PReadUploads /\
    (fun m : gmap string upload_state => m !! "a"%string) <$> uploads_page order s admin n (Some n) 0 = Some (Some UInit) /\
    (fun m : gmap string upload_state => m !! "a"%string) <$> uploads_page order s admin n (Some n) 1 = Some (Some UInit).
Proof.
  exists uploads_demo, (fun l => l), two32.
  split; [unfold uploads_demo, demo1; rewrite <- run_app; apply demo_reachable|]. split; [reflexivity|].
  split; [vm_compute; discriminate|]. split; [apply holds_iff; vm_compute; reflexivity|]. split; vm_compute; reflexivity.
Qed.
Print Assumptions C71_huge_page_refuted.

(** ** C70 *)

(** Size of the batch a request carries, if its method is one of the six and its argument decodes. *)
Definition batch_size (d : decoders) (r : consent_request) : option N :=
  match list_find (fun m => fst m = cr_method r)
    [("icrc7_transfer", nlen <$> d_transfer d (cr_arg r)); ("icrc37_approve_tokens", nlen <$> d_approve d (cr_arg r));
     ("icrc37_approve_collection", nlen <$> d_approve_coll d (cr_arg r));
     ("icrc37_revoke_token_approvals", nlen <$> d_revoke d (cr_arg r));
     ("icrc37_revoke_collection_approvals", nlen <$> d_revoke_coll d (cr_arg r));
     ("icrc37_transfer_from", nlen <$> d_transfer_from d (cr_arg r))]%string with
  | Some (_, (_, n)) => n
  | None => None
  end.

(** A request without a trap: not an empty [icrc37_approve_collection]. *)
Definition not_empty_collection (d : decoders) (r : consent_request) : Prop :=
  cr_method r = "icrc37_approve_collection"%string -> batch_size d r <> Some 0.

Lemma consent_cases d r :
  (cr_method r = "icrc7_transfer"%string /\ consent_message d r = transfer_consent d r /\ batch_size d r = nlen <$> d_transfer d (cr_arg r)) \/
  (cr_method r = "icrc37_approve_tokens"%string /\ consent_message d r = approve_consent d r /\ batch_size d r = nlen <$> d_approve d (cr_arg r)) \/
  (cr_method r = "icrc37_approve_collection"%string /\ consent_message d r = approve_coll_consent d r /\ batch_size d r = nlen <$> d_approve_coll d (cr_arg r)) \/
  (cr_method r = "icrc37_revoke_token_approvals"%string /\ consent_message d r = revoke_consent d r /\ batch_size d r = nlen <$> d_revoke d (cr_arg r)) \/
  (cr_method r = "icrc37_revoke_collection_approvals"%string /\ consent_message d r = revoke_coll_consent d r /\ batch_size d r = nlen <$> d_revoke_coll d (cr_arg r)) \/
  (cr_method r = "icrc37_transfer_from"%string /\ consent_message d r = transfer_from_consent d r /\ batch_size d r = nlen <$> d_transfer_from d (cr_arg r)) \/
  ((exists x, consent_message d r = CErr x) /\ batch_size d r = None).
Proof.
  destruct r as [m arg lang off]. unfold consent_message, batch_size. cbn [cr_method cr_arg].
  destruct (decide (m = "icrc7_transfer"%string)) as [->|N1]; [left; auto|right].
  destruct (decide (m = "icrc37_approve_tokens"%string)) as [->|N2]; [left; auto|right].
  destruct (decide (m = "icrc37_approve_collection"%string)) as [->|N3]; [left; auto|right].
  destruct (decide (m = "icrc37_revoke_token_approvals"%string)) as [->|N4]; [left; auto|right].
  destruct (decide (m = "icrc37_revoke_collection_approvals"%string)) as [->|N5]; [left; auto|right].
  destruct (decide (m = "icrc37_transfer_from"%string)) as [->|N6]; [left; auto|right].
  rewrite !bool_decide_eq_false_2 by assumption. split; [eauto|].
  cbn [list_find fst]. repeat (rewrite decide_False by congruence). reflexivity.
Qed.

(** A message is produced exactly for the supported methods with decodable arguments (and no trap), a refusal for all others;
    the user's language and time zone are handed back. *)
Theorem C70_supported_partial d r :
  not_empty_collection d r ->
  match consent_message d r with
  | COk _ lang offset => is_Some (batch_size d r) /\ lang = cr_lang r /\ offset = cr_offset r
  | CErr _ => batch_size d r = None
  | CTrap => False
  end.
Proof.
  intros NE. destruct (consent_cases d r) as [(M & -> & E)|[(M & -> & E)|[(M & -> & E)|[(M & -> & E)|[(M & -> & E)|[(M & -> & E)|((x & ->) & E)]]]]]];
    rewrite E; try reflexivity.
  - unfold transfer_consent. destruct (d_transfer d _); simpl; eauto.
  - unfold approve_consent. destruct (d_approve d _); simpl; eauto.
  - specialize (NE M). rewrite E in NE. unfold approve_coll_consent. destruct (d_approve_coll d _) as [[|]|]; simpl; eauto.
  - unfold revoke_consent. destruct (d_revoke d _); simpl; eauto.
  - unfold revoke_coll_consent. destruct (d_revoke_coll d _); simpl; eauto.
  - unfold transfer_from_consent. destruct (d_transfer_from d _); simpl; eauto.
Qed.
Print Assumptions C70_supported_partial.

(** A refusal names the method: a supported one by its name without the number of the standard. *)
Theorem C70_refusal d r x :
  consent_message d r = CErr x ->
  (exists std name, (std = "icrc7_" \/ std = "icrc37_") /\ cr_method r = std +:+ name /\
     x = "Failed to decode " +:+ name +:+ " arguments") \/
  x = "Method '" +:+ cr_method r +:+ "' is not supported".
Proof.
  destruct r as [m arg lang off]. unfold consent_message. cbn [cr_method].
  destruct (decide (m = "icrc7_transfer"%string)) as [->|N1].
  { cbn. unfold transfer_consent. cbn [cr_arg]. destruct (d_transfer d arg); [discriminate|]. intros [= <-]. left.
    exists "icrc7_", "transfer". auto. }
  destruct (decide (m = "icrc37_approve_tokens"%string)) as [->|N2].
  { cbn. unfold approve_consent. cbn [cr_arg]. destruct (d_approve d arg); [discriminate|]. intros [= <-]. left.
    exists "icrc37_", "approve_tokens". auto. }
  destruct (decide (m = "icrc37_approve_collection"%string)) as [->|N3].
  { cbn. unfold approve_coll_consent. cbn [cr_arg]. destruct (d_approve_coll d arg) as [[|]|]; [discriminate..|]. intros [= <-]. left.
    exists "icrc37_", "approve_collection". auto. }
  destruct (decide (m = "icrc37_revoke_token_approvals"%string)) as [->|N4].
  { cbn. unfold revoke_consent. cbn [cr_arg]. destruct (d_revoke d arg); [discriminate|]. intros [= <-]. left.
    exists "icrc37_", "revoke_token_approvals". auto. }
  destruct (decide (m = "icrc37_revoke_collection_approvals"%string)) as [->|N5].
  { cbn. unfold revoke_coll_consent. cbn [cr_arg]. destruct (d_revoke_coll d arg); [discriminate|]. intros [= <-]. left.
    exists "icrc37_", "revoke_collection_approvals". auto. }
  destruct (decide (m = "icrc37_transfer_from"%string)) as [->|N6].
  { cbn. unfold transfer_from_consent. cbn [cr_arg]. destruct (d_transfer_from d arg); [discriminate|]. intros [= <-]. left.
    exists "icrc37_", "transfer_from". auto. }
  rewrite !bool_decide_eq_false_2 by assumption. intros [= <-]. right. reflexivity.
Qed.
Print Assumptions C70_refusal.

(** Strings. *)
Local Arguments String.append !_ _ : simpl nomatch.
Lemma append_inj_l a b c : a +:+ b = a +:+ c -> b = c.
Proof. induction a; simpl; [auto|]. intros [= H]. auto. Qed.
Lemma append_length a b : String.length (a +:+ b) = (String.length a + String.length b)%nat.
Proof. induction a as [|c' a IH]; simpl; [reflexivity|]. f_equal. exact IH. Qed.
Lemma append_assoc a b c : (a +:+ b) +:+ c = a +:+ (b +:+ c).
Proof. induction a as [|c' a IH]; simpl; [reflexivity|]. f_equal. exact IH. Qed.
Lemma append_inj a b x y : String.length x = String.length y -> a +:+ x = b +:+ y -> a = b /\ x = y.
Proof.
  intros L. revert b. induction a as [|c a IH]; intros [|c' b]; simpl; intros E.
  - auto.
  - exfalso. apply (f_equal String.length) in E. simpl in E. rewrite append_length in E. lia.
  - exfalso. apply (f_equal String.length) in E. simpl in E. rewrite append_length in E. lia.
  - injection E as -> E. destruct (IH _ E). subst. auto.
Qed.
Lemma append_suffix a b x y : (String.length x <= String.length y)%nat -> a +:+ x = b +:+ y -> exists c, y = c +:+ x.
Proof.
  intros L. revert b. induction a as [|c a IH]; intros [|c' b]; simpl; intros E.
  - exists "". auto.
  - exfalso. apply (f_equal String.length) in E. simpl in E. rewrite append_length in E. lia.
  - exists (String c a). auto.
  - injection E as -> E. eauto.
Qed.
Fixpoint str_drop (n : nat) (s : string) : string :=
  match n, s with S k, String _ r => str_drop k r | _, _ => s end.
Lemma str_drop_app c x : str_drop (String.length c) (c +:+ x) = x.
Proof. induction c; simpl; [destruct x; reflexivity|auto]. Qed.
Lemma suffix_drop c x y : y = c +:+ x -> str_drop (String.length y - String.length x) y = x.
Proof. intros ->. rewrite append_length, Nat.add_sub. apply str_drop_app. Qed.

(** The decimal text of a number starts with a digit. *)
Lemma pretty_go_digit x s : (forall c r, s = String c r -> (Ascii.N_of_ascii c < 58)) -> s <> "" ->
  exists c r, pretty_N_go x s = String c r /\ Ascii.N_of_ascii c < 58.
Proof.
  revert s. induction (N.lt_wf_0 x) as [x _ IH]; intros s Hs Hn.
  destruct (decide (0 < x)) as [P|P].
  - rewrite pretty_N_go_step by exact P. apply IH; [apply N.div_lt; lia| |discriminate].
    intros c r [= <- <-]. unfold pretty_N_char. repeat case_match; vm_compute; reflexivity.
  - assert (x = 0) as -> by lia. rewrite pretty_N_go_0. destruct s as [|c r]; [congruence|]. eauto.
Qed.
Lemma pretty_digit (x : N) : exists c r, pretty x = String c r /\ Ascii.N_of_ascii c < 58.
Proof.
  unfold pretty, pretty_N. case_decide as D; [do 2 eexists; split; [reflexivity|vm_compute; reflexivity]|].
  rewrite pretty_N_go_step by lia. apply pretty_go_digit; [|discriminate].
  intros c r [= <- <-]. unfold pretty_N_char. repeat case_match; vm_compute; reflexivity.
Qed.

(** A message ends with the name of the method it is about. *)
Theorem C70_names_method d r m lang off :
  consent_message d r = COk m lang off -> exists p, m = p +:+ "Method: " +:+ cr_method r.
Proof.
  destruct (consent_cases d r) as [(M & -> & E)|[(M & -> & E)|[(M & -> & E)|[(M & -> & E)|[(M & -> & E)|[(M & -> & E)|((x & ->) & E)]]]]]];
    rewrite ?M.
  - unfold transfer_consent, batch_text. destruct (d_transfer d _); [|discriminate]. intros [= <- _ _]. destruct (1 <? _).
    + exists ("You are about to transfer " +:+ pretty (nlen l) +:+ " NFTs. "). rewrite !append_assoc. reflexivity.
    + exists "You are about to transfer an NFT. ". reflexivity.
  - unfold approve_consent, batch_text. destruct (d_approve d _); [|discriminate]. intros [= <- _ _]. destruct (1 <? _).
    + exists ("You are about to approve " +:+ pretty (nlen l) +:+ " NFTs for transfer. "). rewrite !append_assoc. reflexivity.
    + exists "You are about to approve an NFT for transfer. ". reflexivity.
  - unfold approve_coll_consent. destruct (d_approve_coll d _) as [[|i ?]|]; [discriminate| |discriminate].
    generalize (principal_text (acc_owner (ai_spender i))). intros t [= <- _ _].
    exists ("You are about to approve " +:+ t +:+ " to transfer all your nft available in the collection. ").
    rewrite !append_assoc. reflexivity.
  - unfold revoke_consent, batch_text. destruct (d_revoke d _); [|discriminate]. intros [= <- _ _]. destruct (1 <? _).
    + exists ("You are about to revoke approvals for " +:+ pretty (nlen l) +:+ " NFTs. "). rewrite !append_assoc. reflexivity.
    + exists "You are about to revoke approval for an NFT. ". reflexivity.
  - unfold revoke_coll_consent. destruct (d_revoke_coll d _); [|discriminate]. intros [= <- _ _].
    exists "You are about to revoke collection approvals. ". reflexivity.
  - unfold transfer_from_consent, batch_text. destruct (d_transfer_from d _); [|discriminate]. intros [= <- _ _]. destruct (1 <? _).
    + exists ("You are about to transfer " +:+ pretty (nlen l) +:+ " NFTs using approval. "). rewrite !append_assoc. reflexivity.
    + exists "You are about to transfer an NFT using approval. ". reflexivity.
  - discriminate.
Qed.
Print Assumptions C70_names_method.

(** No two methods share a message. *)
Theorem C70_message_tells_method d r1 r2 m l1 o1 l2 o2 :
  consent_message d r1 = COk m l1 o1 -> consent_message d r2 = COk m l2 o2 -> cr_method r1 = cr_method r2.
Proof.
  intros H1 H2.
  assert (S : forall r l o, consent_message d r = COk m l o ->
    cr_method r ∈ ["icrc7_transfer"; "icrc37_approve_tokens"; "icrc37_approve_collection"; "icrc37_revoke_token_approvals";
                   "icrc37_revoke_collection_approvals"; "icrc37_transfer_from"]%string).
  { intros r l o H. destruct (consent_cases d r) as [(M & _)|[(M & _)|[(M & _)|[(M & _)|[(M & _)|[(M & _)|((x & E) & _)]]]]]];
      [rewrite M; set_solver..|]. rewrite E in H. discriminate. }
  pose proof (S _ _ _ H1) as S1. pose proof (S _ _ _ H2) as S2. clear S.
  apply C70_names_method in H1. apply C70_names_method in H2. destruct H1 as (p1 & ->), H2 as (p2 & H).
  rewrite <- (append_assoc p1), <- (append_assoc p2) in H.
  assert (X : forall a b x y, a +:+ x = b +:+ y -> (String.length x <= String.length y)%nat ->
    str_drop (String.length y - String.length x) y = x).
  { intros a b x y E L. destruct (append_suffix _ _ _ _ L E) as (c & Hc). eapply suffix_drop. exact Hc. }
  rewrite !append_assoc in H.
  set (q1 := ("Method: " +:+ cr_method r1)) in *. set (q2 := ("Method: " +:+ cr_method r2)) in *.
  destruct (Nat.le_ge_cases (String.length q1) (String.length q2)) as [L|L];
    [pose proof (X _ _ _ _ H L) as D|symmetry in H; pose proof (X _ _ _ _ H L) as D]; unfold q1, q2 in D, L;
  rewrite !elem_of_cons, elem_of_nil in S1, S2;
  destruct S1 as [S1|[S1|[S1|[S1|[S1|[S1|[]]]]]]]; destruct S2 as [S2|[S2|[S2|[S2|[S2|[S2|[]]]]]]];
    rewrite S1, S2 in *; first [reflexivity|exfalso; vm_compute in D; discriminate].
Qed.
Print Assumptions C70_message_tells_method.

(** For the four batched token methods the message tells the number of items, if it is more than one. *)
Theorem C70_message_tells_count_partial d r1 r2 m l1 o1 l2 o2 n1 n2 :
  consent_message d r1 = COk m l1 o1 -> consent_message d r2 = COk m l2 o2 ->
  cr_method r1 <> "icrc37_approve_collection"%string -> cr_method r1 <> "icrc37_revoke_collection_approvals"%string ->
  batch_size d r1 = Some n1 -> batch_size d r2 = Some n2 -> 1 < n1 -> n1 = n2.
Proof.
  intros H1 H2 X1 X2 B1 B2 Hn. pose proof (C70_message_tells_method _ _ _ _ _ _ _ _ H1 H2) as M.
  assert (T : forall p q one n1 n2, batch_text p q one n1 = m -> batch_text p q one n2 = m -> 1 < n1 ->
     (forall c x, p +:+ String c x = one -> 58 <= Ascii.N_of_ascii c) -> n1 = n2).
  { clear. intros p q one n1 n2 E1 E2 L O. unfold batch_text in *. destruct (N.ltb_spec 1 n1); [|lia].
    destruct (N.ltb_spec 1 n2).
    - rewrite <- E2 in E1. apply append_inj_l in E1. apply append_inj in E1; [|reflexivity]. destruct E1 as [E1 _].
      apply (inj pretty) in E1. exact E1.
    - exfalso. destruct (pretty_digit n1) as (c & x & E & Hc). rewrite E in E1. rewrite <- E2 in E1.
      specialize (O c (x +:+ q)). simpl in E1. apply O in E1. lia. }
  destruct (consent_cases d r1) as [(M1 & C1 & E1)|[(M1 & C1 & E1)|[(M1 & _)|[(M1 & C1 & E1)|[(M1 & _)|[(M1 & C1 & E1)|((x & Y) & E1)]]]]]]; try congruence;
  rewrite C1 in H1; rewrite E1 in B1;
  destruct (consent_cases d r2) as [(M2 & C2 & E2)|[(M2 & C2 & E2)|[(M2 & _)|[(M2 & C2 & E2)|[(M2 & _)|[(M2 & C2 & E2)|((x & Y) & E2)]]]]]]; try congruence;
  rewrite C2 in H2; rewrite E2 in B2.
  - unfold transfer_consent in *. destruct (d_transfer d (cr_arg r1)); [|discriminate]. destruct (d_transfer d (cr_arg r2)); [|discriminate].
    injection H1 as H1 _ _. injection H2 as H2 _ _. injection B1 as B1. injection B2 as B2. subst n1 n2.
    eapply T; [exact H1|exact H2|exact Hn|]. intros c x [= -> _]. vm_compute. discriminate.
  - unfold approve_consent in *. destruct (d_approve d (cr_arg r1)); [|discriminate]. destruct (d_approve d (cr_arg r2)); [|discriminate].
    injection H1 as H1 _ _. injection H2 as H2 _ _. injection B1 as B1. injection B2 as B2. subst n1 n2.
    eapply T; [exact H1|exact H2|exact Hn|]. intros c x [= -> _]. vm_compute. discriminate.
  - unfold revoke_consent in *. destruct (d_revoke d (cr_arg r1)); [|discriminate]. destruct (d_revoke d (cr_arg r2)); [|discriminate].
    injection H1 as H1 _ _. injection H2 as H2 _ _. injection B1 as B1. injection B2 as B2. subst n1 n2.
    eapply T; [exact H1|exact H2|exact Hn|]. intros c x Z. discriminate Z.
  - unfold transfer_from_consent in *. destruct (d_transfer_from d (cr_arg r1)); [|discriminate]. destruct (d_transfer_from d (cr_arg r2)); [|discriminate].
    injection H1 as H1 _ _. injection H2 as H2 _ _. injection B1 as B1. injection B2 as B2. subst n1 n2.
    eapply T; [exact H1|exact H2|exact Hn|]. intros c x [= -> _]. vm_compute. discriminate.
Qed.
Print Assumptions C70_message_tells_count_partial.

(** The query traps on an empty collection approval. *)
Definition demo_decoders : decoders :=
  mkDec (fun b => Some (map (fun t => mkTransferArg (acct bob) t None None None) b))
        (fun b => Some (map (fun t => mkApproveArg t (info bob 0 None)) b))
        (fun b => Some (map (fun p => info [p] 0 None) b))
        (fun b => Some (map (fun t => mkRevokeArg None None t None None) b))
        (fun b => Some (map (fun p => mkRevokeCollArg (Some (acct [p])) None None None) b))
        (fun b => if bool_decide (b = [255]) then None else Some (map (fun t => tfrom alice bob t) b)).
Theorem C70_never_traps_refuted :
  ~ (forall d r, consent_message d r <> CTrap).
Proof. intros H. apply (H demo_decoders (mkConsent "icrc37_approve_collection" [] "en" None)). vm_compute. reflexivity. Qed.
Print Assumptions C70_never_traps_refuted.

(** The message for a batch of collection approvals is that of its first item alone: the user who consents to one spender
    may approve others as well. *)
Theorem C70_count_refuted :
  ~ (forall d r1 r2 m l1 o1 l2 o2 n1 n2,
       consent_message d r1 = COk m l1 o1 -> consent_message d r2 = COk m l2 o2 ->
       batch_size d r1 = Some n1 -> batch_size d r2 = Some n2 -> 1 < n1 -> n1 = n2).
Proof.
  intros H. specialize (H demo_decoders (mkConsent "icrc37_approve_collection" [2; 3] "en" None) (mkConsent "icrc37_approve_collection" [2] "en" None)).
  assert (E : 2 = 1); [|discriminate E].
  eapply H; vm_compute; reflexivity.
Qed.
Print Assumptions C70_count_refuted.

Example C70_example :
  consent_message demo_decoders (mkConsent "icrc7_transfer" [7; 8; 9] "en" (Some 60%Z)) =
    COk "You are about to transfer 3 NFTs. Method: icrc7_transfer" "en" (Some 60%Z) /\
  consent_message demo_decoders (mkConsent "icrc37_transfer_from" [7] "en" None) =
    COk "You are about to transfer an NFT using approval. Method: icrc37_transfer_from" "en" None /\
  consent_message demo_decoders (mkConsent "icrc37_transfer_from" [255] "en" None) = CErr "Failed to decode transfer_from arguments" /\
  consent_message demo_decoders (mkConsent "mint" [] "en" None) = CErr "Method 'mint' is not supported" /\
  not_empty_collection demo_decoders (mkConsent "icrc7_transfer" [7; 8; 9] "en" None).
Proof. splits; try (vm_compute; reflexivity). intros X. discriminate X. Qed.
