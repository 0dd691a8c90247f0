(** C33-C41: permissions, the management lock, settings, installation and upgrades. *)
From Verif Require Import Base ModelPrincipal ModelState ModelIcrc7 ModelIcrc37 ModelManagement ModelLifecycle
  ModelQueries ModelStep ProofsItems ProofsManage ProofsMicro Spec ProofsCore ProofsLock Scenario.

(** ** C33 *)
Theorem C33_permission_needed e o s perm :
  required o = Some perm -> ~ holds s (e_caller e) perm -> exists msg, step e o s = (s, AReject msg).
Proof. intros R H. eapply step_no_permission; [exact R|]. apply holds_not_iff. exact H. Qed.
Print Assumptions C33_permission_needed.

(** The rejection names the permission that is missing. *)
Definition in_words (p : permission) : string :=
  match p with
  | PMinting => "minting" | PManageAuthorities => "manage authorities" | PUpdateMetadata => "update metadata"
  | PUpdateCollectionMetadata => "update collection metadata" | PReadUploads => "read uploads" | PUpdateUploads => "update uploads"
  end%string.
Theorem C33_names_permission e o s perm :
  required o = Some perm -> ~ holds s (e_caller e) perm ->
  step e o s = (s, AReject ("Caller does not have " +:+ in_words perm +:+ " permission")).
Proof.
  intros R H. apply holds_not_iff in H. destruct o; try discriminate R; injection R as <-; cbn [step];
    unfold update_collection_metadata, mint, update_nft_metadata, grant_permission, revoke_permission, with_permission,
      init_upload, store_chunk, finalize_upload, cancel_upload, upload_entry; rewrite H; reflexivity.
Qed.
Print Assumptions C33_names_permission.

(** The same for the guarded queries: nothing is disclosed without the permission. *)
Theorem C33_queries_gated s caller :
  (~ holds s caller PManageAuthorities ->
     (forall p q, query_has_permission s caller p q = None) /\ (forall p, get_user_permissions s caller p = None) /\
     get_all_storage_subcanisters s caller = None) /\
  (~ holds s caller PReadUploads ->
     (forall path, query_upload_status s caller path = None) /\
     (forall order prev tk, get_all_uploads order s caller prev tk = None)).
Proof.
  split; intros H; apply holds_not_iff in H;
    unfold query_has_permission, get_user_permissions, get_all_storage_subcanisters, query_upload_status, get_all_uploads;
    rewrite H; auto.
Qed.
Print Assumptions C33_queries_gated.

Example C33_example :
  required mint3 = Some PMinting /\ ~ holds demo1 alice PMinting /\
  snd (step (from_ alice 5) mint3 demo1) = AReject "Caller does not have minting permission" /\
  snd (step (from_ admin 5) mint3 demo1) = ANat 4 /\
  query_upload_status demo1 alice "/a" = None /\ query_upload_status demo1 admin "/a" = Some None.
Proof.
  split; [reflexivity|]. split; [apply holds_not_iff; vm_compute; reflexivity|]. splits; vm_compute; reflexivity.
Qed.

(** ** C34 *)
Theorem C34_only_managers h s0 ev p q :
  ev ∈ trace h s0 ->
  (holds (ev_after ev) p q -> ~ holds (ev_before ev) p q ->
     ev_op ev = OGrant p q /\ ev_ans ev = AOk /\ holds (ev_before ev) (e_caller (ev_env ev)) PManageAuthorities) /\
  (~ holds (ev_after ev) p q -> holds (ev_before ev) p q ->
     ev_op ev = ORevokePerm p q /\ ev_ans ev = AOk /\ holds (ev_before ev) (e_caller (ev_env ev)) PManageAuthorities).
Proof.
  intros H. apply trace_step in H. destruct H as [S _].
  destruct (step_holds _ _ _ _ _ p q S) as [E|(-> & M & [[-> E]|[-> E]])]; split; intros; try tauto; auto.
Qed.
Print Assumptions C34_only_managers.

(** Every permission held comes from the installation or from a grant by a holder of ManageAuthorities. *)
Theorem C34_origin caller url_ok a s0 h p q :
  init caller url_ok a = Some s0 -> holds (run h s0) p q ->
  (exists l, i_permissions a !! p = Some l /\ q ∈ l) \/ (i_test_mode a = true /\ p = caller) \/
  (exists ev, ev ∈ trace h s0 /\ ev_op ev = OGrant p q /\ ev_ans ev = AOk /\
     holds (ev_before ev) (e_caller (ev_env ev)) PManageAuthorities).
Proof.
  intros Hi H.
  assert (G : forall h s, holds (run h s) p q -> holds s p q \/
    exists ev, ev ∈ trace h s /\ ev_op ev = OGrant p q /\ ev_ans ev = AOk /\
     holds (ev_before ev) (e_caller (ev_env ev)) PManageAuthorities).
  { clear. induction h as [|[e o] h IH]; intros s H; simpl in H; [auto|]. apply IH in H. simpl.
    destruct (step e o s) as [s1 an] eqn:S. simpl in *. destruct H as [H|(ev & H1 & H2)].
    - destruct (step_holds _ _ _ _ _ p q S) as [E|(-> & M & [[-> E]|[-> E]])]; [tauto| |tauto].
      right. eexists. split; [left|]. simpl. auto.
    - right. exists ev. split; [right; exact H1|exact H2]. }
  apply G in H. destruct H as [H|H]; [|right; right; exact H].
  apply init_inv in Hi. destruct Hi as (_ & _ & _ & _ & ->). destruct H as (l & H1 & H2). simpl in H1.
  destruct (i_test_mode a); [|left; eauto]. destruct (decide (p = caller)) as [->|Hne]; [auto|].
  unfold test_mode_grants, perm_grant in H1. rewrite !lookup_insert_ne in H1 by congruence. left. eauto.
Qed.
Print Assumptions C34_origin.

Example C34_example :
  let h := [(from_ admin 1, OGrant bob PMinting); (from_ bob 2, OGrant carol PMinting);
            (from_ admin 3, ORevokePerm bob PMinting)] in
  holds (run (take 1 h) demo0) bob PMinting /\ ~ holds (run (take 2 h) demo0) carol PMinting /\
  ~ holds (run h demo0) bob PMinting /\ map ev_ans (trace h demo0) =
    [AOk; AReject "Caller does not have manage authorities permission"; AOk].
Proof.
  split; [apply holds_iff; vm_compute; reflexivity|]. split; [apply holds_not_iff; vm_compute; reflexivity|].
  split; [apply holds_not_iff; vm_compute; reflexivity|]. vm_compute. reflexivity.
Qed.

(** ** C35 *)
Theorem C35_grant e p q s s' :
  step e (OGrant p q) s = (s', AOk) ->
  holds s' p q /\ (forall p' q', (p', q') <> (p, q) -> holds s' p' q' <-> holds s p' q') /\
  query_has_permission s' (e_caller e) p q = Some true.
Proof.
  rewrite step_grant. destruct (has_permission _ _ _) eqn:P; [|discriminate]. destruct (decide _); [|discriminate].
  intros [= <-]. splits.
  - apply holds_grant. auto.
  - intros p' q' Hne. rewrite holds_grant. split; [|auto]. intros [H|[-> ->]]; [exact H|congruence].
  - unfold query_has_permission.
    assert (X : has_permission (set_perms (perm_grant p q (perms s)) s) (e_caller e) PManageAuthorities = true)
      by (apply holds_iff, holds_grant; left; apply holds_iff; exact P).
    rewrite X. f_equal. apply holds_iff, holds_grant. auto.
Qed.
Print Assumptions C35_grant.

Theorem C35_revoke e p q s s' :
  step e (ORevokePerm p q) s = (s', AOk) ->
  ~ holds s' p q /\ (forall p' q', (p', q') <> (p, q) -> holds s' p' q' <-> holds s p' q') /\
  ((e_caller e, PManageAuthorities) <> (p, q) -> query_has_permission s' (e_caller e) p q = Some false).
Proof.
  rewrite step_revoke_perm. destruct (has_permission _ _ _) eqn:P; [|discriminate]. destruct (decide _); [|discriminate].
  intros [= <-]. splits.
  - rewrite holds_revoke. tauto.
  - intros p' q' Hne. rewrite holds_revoke. split; [tauto|]. intros H. split; [exact H|]. intros [-> ->]. congruence.
  - intros Hne. unfold query_has_permission.
    assert (X : has_permission (set_perms (perm_revoke p q (perms s)) s) (e_caller e) PManageAuthorities = true).
    { apply holds_iff, holds_revoke. split; [apply holds_iff; exact P|]. intros [E1 E2]. apply Hne. congruence. }
    rewrite X. f_equal. apply holds_not_iff. rewrite holds_revoke. tauto.
Qed.
Print Assumptions C35_revoke.

(** Answers of the two permission queries agree with each other and with what the guards enforce. *)
Theorem C35_queries s caller p q :
  holds s caller PManageAuthorities ->
  (query_has_permission s caller p q = Some true <-> holds s p q) /\
  (query_has_permission s caller p q = Some false <-> ~ holds s p q) /\
  (holds s p q <-> exists l, get_user_permissions s caller p = Some (Some l) /\ q ∈ l).
Proof.
  intros H. apply holds_iff in H. unfold query_has_permission, get_user_permissions. rewrite H. splits.
  - rewrite <- holds_iff. split; congruence.
  - rewrite <- holds_not_iff. split; congruence.
  - unfold holds. split; intros (l & E & X); exists l; split; congruence.
Qed.
Print Assumptions C35_queries.

(** Granted twice, revoked once: gone. *)
Example C35_example :
  let h := [(from_ admin 1, OGrant bob PMinting); (from_ admin 2, OGrant bob PMinting); (from_ admin 3, OGrant bob PReadUploads)] in
  let s := run h demo0 in
  holds s admin PManageAuthorities /\
  get_user_permissions s admin bob = Some (Some [PMinting; PMinting; PReadUploads]) /\
  snd (step (from_ admin 4) (ORevokePerm bob PMinting) s) = AOk /\
  get_user_permissions (fst (step (from_ admin 4) (ORevokePerm bob PMinting) s)) admin bob = Some (Some [PReadUploads]).
Proof. intros h s. split; [apply holds_iff; vm_compute; reflexivity|]. splits; vm_compute; reflexivity. Qed.

(** ** C36 *)
Theorem C36_exclusion s :
  reachable s ->
  (size (pend s) <= 1)%nat /\
  (pend s <> ∅ -> forall e o, exclusive o ->
     step e o s = (s, AErr EConcurrentManagementCall) \/
     (exists perm msg, required o = Some perm /\ ~ holds s (e_caller e) perm /\ step e o s = (s, AReject msg))).
Proof.
  intros Hr. destruct (reachable_lock_inv _ Hr) as [L1 L2]. split; [exact L1|].
  intros P e o X. apply step_locked; [exact X|].
  destruct (map_choose _ P) as (id & p & Hp). rewrite (L2 _ _ Hp). apply non_empty_singleton_L.
Qed.
Print Assumptions C36_exclusion.

(** A call can only start waiting when no other is waiting. *)
Theorem C36_starts_alone s e o s' :
  reachable s -> step e o s = (s', APending) -> pend s = ∅ /\ (size (pend s') = 1)%nat.
Proof.
  intros Hr S. destruct (decide (pend s = ∅)) as [E|E].
  - split; [exact E|].
    assert (R : reachable s').
    { destruct Hr as (c & u & a & s0 & h & Hi & ->). exists c, u, a, s0, (h ++ [(e, o)]). split; [exact Hi|].
      rewrite run_app. simpl. rewrite S. reflexivity. }
    destruct (reachable_lock_inv _ R) as [L1 _].
    destruct (step_pending _ _ _ _ S) as [_ N0].
    assert (size (pend s') <> 0%nat) by (intros Z; apply N0, map_size_empty_inv, Z). lia.
  - exfalso. destruct (step_pending _ _ _ _ S) as [R _].
    assert (X : exclusive o) by (left; congruence).
    destruct (C36_exclusion s Hr) as [_ C]. destruct (C E e o X) as [Y|(perm & msg & _ & _ & Y)]; congruence.
Qed.
Print Assumptions C36_starts_alone.

(** admin waits for the storage canister; bob, who may grant too, is turned away, carol has no permission. *)
Definition waiting_h : history :=
  [(from_ admin 1, OGrant bob PManageAuthorities); (from_ admin 2, OInitUpload "/a" 10)].
Example C36_example :
  let s := run waiting_h demo0 in
  reachable s /\ pend s <> ∅ /\ exclusive (OGrant carol PMinting) /\
  snd (step (from_ bob 3) (OGrant carol PMinting) s) = AErr EConcurrentManagementCall /\
  snd (step (from_ admin 3) (OGrant carol PMinting) s) = AErr EConcurrentManagementCall /\
  snd (step (from_ carol 3) (OGrant carol PMinting) s) = AReject "Caller does not have manage authorities permission" /\
  snd (step (from_ alice 3) (OBurn 1) s) = AErr EConcurrentManagementCall.
Proof.
  intros s. split; [apply demo_reachable|].
  split; [intros E; apply (f_equal (fun m => m !! 0)) in E; revert E; vm_compute; discriminate|].
  split; [left; discriminate|]. splits; vm_compute; reflexivity.
Qed.

(** ** C37 *)
Theorem C37_lock_released caller url_ok a s0 h :
  init caller url_ok a = Some s0 -> calm (trace h s0) ->
  let s := run h s0 in
  (pend s = ∅ -> forall e o, snd (step e o s) <> AErr EConcurrentManagementCall) /\
  (pend s = ∅ -> forall e p q, holds s (e_caller e) PManageAuthorities -> snd (step e (OGrant p q) s) = AOk) /\
  (forall id p, pend s !! id = Some p -> forall e r, pend (fst (step e (OReply id r) s)) = ∅).
Proof.
  intros Hi C s. destruct (init_lock_inv _ _ _ _ Hi) as (L & G & P).
  assert (F : free_inv s) by (apply free_inv_trace; [exact C|split; auto]).
  destruct F as [[L1 L2] F]. splits.
  - intros E e o. specialize (F E).
    assert (B : forall A (body : option (state * mres A)) perm msg, with_permission perm msg e s body =
              (if has_permission s (e_caller e) perm then body else Some (s, MReject msg))) by reflexivity.
    destruct o; simpl;
      unfold ans_batch, ans_unit, ans_nat, update_collection_metadata, mint, update_nft_metadata, burn_nft,
        grant_permission, revoke_permission.
    + destruct (icrc7_transfer _ _ _) as [[? ?]|]; discriminate.
    + destruct (icrc37_approve_tokens _ _ _) as [[? ?]|]; discriminate.
    + destruct (icrc37_approve_collection _ _ _) as [[? ?]|]; discriminate.
    + unfold icrc37_revoke_token_approvals. destruct args; [discriminate|].
      destruct (guard_sliding_window _ _ _) as [s1 []]; cbn [negb]; [|discriminate].
      destruct (run_items _ _ _) as [[? ?]|]; discriminate.
    + destruct (icrc37_revoke_collection_approvals _ _ _) as [[? ?]|]; discriminate.
    + destruct (icrc37_transfer_from _ _ _) as [[? ?]|]; discriminate.
    + rewrite B. destruct (has_permission _ _ _); [|discriminate].
      rewrite (with_lock_eq _ _ _ (commutes_cfg u)), decide_True by exact F. discriminate.
    + rewrite B. destruct (has_permission _ _ _); [|discriminate].
      rewrite (with_lock_eq _ _ _ (commutes_mint e reqs)), decide_True by exact F.
      unfold mint_body. destruct (_ <? nlen reqs); [discriminate|]. destruct (_ <? _ + _); [discriminate|].
      destruct (check_memos _ _) as [[|]|]; [|discriminate..]. destruct (mint_metadata _ _ _); [|discriminate].
      destruct (mint_log _ _ _ _) as [? [?|]]; discriminate.
    + rewrite B. destruct (has_permission _ _ _); [|discriminate].
      rewrite (with_lock_eq _ _ _ (commutes_update e tid kvs)), decide_True by exact F.
      unfold update_nft_metadata_body. destruct (tokens s !! tid); [|discriminate].
      destruct (replace_metadata _ _ _); [|discriminate]. destruct (add_transaction _ _ _) as [? []]; discriminate.
    + rewrite (with_lock_eq _ _ _ (commutes_burn e tid)), decide_True by exact F.
      unfold burn_body. destruct (tokens s !! tid); [|discriminate]. destruct (negb _); [discriminate|].
      destruct (add_transaction _ _ _) as [? []]; discriminate.
    + rewrite B. destruct (has_permission _ _ _); [|discriminate].
      rewrite (with_lock_eq _ _ _ (commutes_perm (perm_grant p perm))), decide_True by exact F. discriminate.
    + rewrite B. destruct (has_permission _ _ _); [|discriminate].
      rewrite (with_lock_eq _ _ _ (commutes_perm (perm_revoke p perm))), decide_True by exact F. discriminate.
    + unfold init_upload, upload_entry. destruct (has_permission _ _ _); [|discriminate].
      rewrite guard_new_spec, decide_True by exact F. rewrite init_first_guards. unfold init_upload_first.
      destruct (contains_path _ _); [discriminate|]. destruct (_ <? _); discriminate.
    + unfold store_chunk, upload_entry. destruct (has_permission _ _ _); [|discriminate].
      rewrite guard_new_spec, decide_True by exact F. rewrite store_first_guards. unfold store_chunk_first.
      destruct (files s !! path) as [u|]; [|discriminate]. destruct (u_state u); try discriminate; destruct (bool_decide _); discriminate.
    + unfold finalize_upload, upload_entry. destruct (has_permission _ _ _); [|discriminate].
      rewrite guard_new_spec, decide_True by exact F. rewrite finalize_first_guards. unfold finalize_upload_first.
      destruct (files s !! path) as [u|]; [|discriminate]. destruct (u_state u); try discriminate; destruct (bool_decide _); discriminate.
    + unfold cancel_upload, upload_entry. destruct (has_permission _ _ _); [|discriminate].
      rewrite guard_new_spec, decide_True by exact F. rewrite cancel_first_guards. unfold cancel_upload_first.
      destruct (files s !! path) as [u|]; [|discriminate]. destruct (u_state u); try discriminate; destruct (bool_decide _); discriminate.
    + unfold resume. rewrite E, lookup_empty. discriminate.
    + discriminate.
  - intros E e p q H. rewrite step_grant. apply holds_iff in H. rewrite H, decide_True by auto. reflexivity.
  - intros id p Hp e r. simpl. unfold resume. rewrite Hp. destruct (continue _ _ _ _) as [s1 x] eqn:K.
    pose proof (continue_frame (e_now e) p r s) as (_ & K2 & _). rewrite K in K2. simpl in K2.
    destruct x as [[| |]|]; simpl; rewrite K2, (size_le_1 _ _ _ L1 Hp); apply delete_singleton.
Qed.
Print Assumptions C37_lock_released.

(** After the call of the previous example was answered by an error, by success or by a trap, bob can grant. *)
Example C37_example :
  calm (trace (waiting_h ++ [(from_ admin 4, OReply 0 RTrap)]) demo0) /\
  pend (run (waiting_h ++ [(from_ admin 4, OReply 0 RTrap)]) demo0) = ∅ /\
  map (fun r => snd (step (from_ bob 5) (OGrant carol PMinting) (run (waiting_h ++ [(from_ admin 4, OReply 0 r)]) demo0)))
    [RTrap; RInitErr None (EStorageCanisterError "x"); RInitOk [7]] = [AOk; AOk; AOk].
Proof.
  split; [repeat constructor; discriminate|].
  split; [apply map_empty_size; vm_compute; reflexivity|vm_compute; reflexivity].
Qed.

(** ** C38 *)

(** Refuted: an upgrade while an upload call waits leaves the lock held for ever: whatever happens afterwards, no
    management call ever proceeds. *)
Theorem C38_upgrade_lock_refuted :
  exists s, reachable s /\ (exists s1 e, reachable s1 /\ step e OUpgrade s1 = (s, AOk)) /\
    forall h e o, exclusive o ->
      let s' := run h s in
      step e o s' = (s', AErr EConcurrentManagementCall) \/ (exists msg, step e o s' = (s', AReject msg)).
Proof.
  exists (run (waiting_h ++ [(from_ admin 4, OUpgrade)]) demo0). split; [apply demo_reachable|]. split.
  - exists (run waiting_h demo0), (from_ admin 4). split; [apply demo_reachable|]. rewrite run_app. reflexivity.
  - intros h e o X s'.
    assert (K : stuck s').
    { apply stuck_run. split; [|reflexivity]. apply set_not_empty_size. vm_compute. discriminate. }
    destruct (step_locked e o s' X (proj1 K)) as [Y|(perm & msg & _ & _ & Y)]; eauto.
Qed.
Print Assumptions C38_upgrade_lock_refuted.

(** Holds if no upgrade ever happens in the middle of a call.  Missing: upgrades while a storage call is outstanding. *)
Theorem C38_upgrade_lock_partial caller url_ok a s0 h e :
  init caller url_ok a = Some s0 -> calm (trace h s0) -> pend (run h s0) = ∅ ->
  let s := fst (step e OUpgrade (run h s0)) in
  forall e' o, snd (step e' o s) <> AErr EConcurrentManagementCall.
Proof.
  intros Hi C P s e' o.
  assert (E : s = run (h ++ [(e, OUpgrade)]) s0) by (rewrite run_app; reflexivity).
  rewrite E. eapply C37_lock_released; [exact Hi| |].
  - clear -C P. revert s0 C P. induction h as [|[e1 o1] h IH]; intros s0 C P; simpl in *.
    + repeat constructor. intros _. exact P.
    + destruct (step e1 o1 s0) as [s1 an]. simpl in *. inversion C; subst. constructor; [assumption|]. apply IH; assumption.
  - rewrite run_app. simpl. reflexivity.
Qed.
Print Assumptions C38_upgrade_lock_partial.

Example C38_example :
  calm (trace (waiting_h ++ [(from_ admin 4, OReply 0 (RInitOk [7]))]) demo0) /\
  pend (run (waiting_h ++ [(from_ admin 4, OReply 0 (RInitOk [7]))]) demo0) = ∅ /\
  snd (step (from_ bob 6) (OGrant carol PMinting)
        (run (waiting_h ++ [(from_ admin 4, OReply 0 (RInitOk [7])); (from_ admin 5, OUpgrade)]) demo0)) = AOk.
Proof.
  split; [repeat constructor; discriminate|].
  split; [apply map_empty_size; vm_compute; reflexivity|vm_compute; reflexivity].
Qed.

(** ** C39 *)

(** The new value if one is given, else the old one. *)
Definition given {A} (new old : option A) : option A := match new with Some x => Some x | None => old end.

Theorem C39_update_settings_partial e u s s' :
  step e (OUpdateCollection u) s = (s', AOk) ->
  (icrc7_symbol s' = match cu_symbol u with Some x => x | None => icrc7_symbol s end /\
   icrc7_name s' = match cu_name u with Some x => x | None => icrc7_name s end /\
   icrc7_description s' = given (cu_description u) (icrc7_description s) /\
   icrc7_logo s' = given (cu_logo u) (icrc7_logo s) /\
   icrc7_supply_cap s' = given (cu_supply_cap u) (icrc7_supply_cap s) /\
   icrc7_max_query_batch_size s' = given (cu_max_query u) (icrc7_max_query_batch_size s) /\
   icrc7_max_update_batch_size s' = given (cu_max_update u) (icrc7_max_update_batch_size s) /\
   icrc7_max_take_value s' = given (cu_max_take u) (icrc7_max_take_value s) /\
   icrc7_default_take_value s' = given (cu_default_take u) (icrc7_default_take_value s) /\
   icrc7_max_memo_size s' = given (cu_max_memo u) (icrc7_max_memo_size s) /\
   icrc7_atomic_batch_transfers s' = given (cu_atomic u) (icrc7_atomic_batch_transfers s) /\
   icrc7_tx_window s' = given (cu_tx_window u) (icrc7_tx_window s) /\
   icrc7_permitted_drift s' = given (cu_drift u) (icrc7_permitted_drift s) /\
   c_threshold (cfg s') = given (cu_threshold u) (c_threshold (cfg s)) /\
   icrc37_max_approvals s' = icrc37_max_approvals s /\ icrc37_max_revoke s' = icrc37_max_revoke s) /\
  (perms s' = perms s /\ tokens s' = tokens s /\ by_owner s' = by_owner s /\ last_id s' = last_id s /\
   redirs s' = redirs s /\ subs s' = subs s /\ tok_appr s' = tok_appr s /\ col_appr s' = col_appr s /\
   metas s' = metas s /\ guards s' = guards s /\ files s' = files s /\ log s' = log s /\ pend s' = pend s).
Proof.
  simpl. unfold update_collection_metadata, with_permission. destruct (has_permission _ _ _); [|discriminate].
  rewrite (with_lock_eq _ _ _ (commutes_cfg u)). destruct (decide _); [|discriminate]. simpl. intros [= <-].
  split; splits; try reflexivity;
    unfold icrc7_symbol, icrc7_name; simpl; destruct u as [? [] []]; reflexivity.
Qed.
Print Assumptions C39_update_settings_partial.

(** Refuted for the field [collection_metadata]: accepted, answered with success, and ignored. *)
Theorem C39_collection_metadata_refuted :
  exists s e kvs, reachable s /\ kvs <> [] /\
    let u := mkCU None None None None None None None None None None None None None None (Some kvs) in
    step e (OUpdateCollection u) s = (s, AOk).
Proof.
  exists demo1, (from_ admin 5), [("artist"%string, VText "x")]. split; [apply (demo_reachable demo1_h)|].
  split; [discriminate|]. intros u.
  assert (X : forall s e, has_permission s (e_caller e) PUpdateCollectionMetadata = true -> guards s = ∅ ->
    step e (OUpdateCollection u) s = (s, AOk)).
  { intros s e P G. simpl. unfold update_collection_metadata, with_permission.
    rewrite (with_lock_eq _ _ _ (commutes_cfg u)), P, decide_True by exact G.
    destruct s as [c]; destruct c; reflexivity. }
  apply X; [vm_compute; reflexivity|]. apply set_empty_size. vm_compute. reflexivity.
Qed.
Print Assumptions C39_collection_metadata_refuted.

Example C39_example :
  let u := mkCU (Some "d"%string) None (Some "New"%string) None (Some 7) None None None None None None None (Some 3) None None in
  snd (step (from_ admin 5) (OUpdateCollection u) demo1) = AOk /\
  let s' := fst (step (from_ admin 5) (OUpdateCollection u) demo1) in
  icrc7_name s' = "New"%string /\ icrc7_symbol s' = "SYM"%string /\ icrc7_supply_cap s' = Some 7 /\
  icrc7_permitted_drift s' = Some 3 /\ total_supply s' = 3.
Proof. splits; vm_compute; reflexivity. Qed.

(** ** C40 *)
Theorem C40_init_settings_partial caller url_ok a s :
  init caller url_ok a = Some s ->
  icrc7_symbol s = i_symbol a /\ icrc7_name s = i_name a /\ icrc7_description s = i_description a /\
  icrc7_logo s = i_logo a /\ icrc7_supply_cap s = i_supply_cap a /\ icrc7_max_query_batch_size s = i_max_query a /\
  icrc7_max_update_batch_size s = i_max_update a /\ icrc7_max_take_value s = i_max_take a /\
  icrc7_default_take_value s = i_default_take a /\ icrc7_max_memo_size s = i_max_memo a /\
  icrc7_atomic_batch_transfers s = i_atomic a /\ icrc7_tx_window s = i_tx_window a /\
  icrc37_max_approvals s = i_max_appr a /\ icrc37_max_revoke s = i_max_revoke a /\
  (* what is answered for the drift is the storage threshold *)
  icrc7_permitted_drift s = i_threshold a /\ c_threshold (cfg s) = i_drift a /\
  (forall p q, i_test_mode a = false -> holds s p q <-> exists l, i_permissions a !! p = Some l /\ q ∈ l) /\
  total_supply s = 0.
Proof. intros Hi. apply init_inv in Hi. destruct Hi as (_ & _ & _ & _ & ->). splits; try reflexivity. intros p q ->. reflexivity. Qed.
Print Assumptions C40_init_settings_partial.

(** Refuted: the drift asked for is not the drift reported (nor the one used). *)
Theorem C40_drift_refuted :
  exists caller url_ok a s, init caller url_ok a = Some s /\ i_drift a = Some 1000 /\ i_threshold a = Some 77 /\
    icrc7_permitted_drift s = Some 77.
Proof.
  exists admin, (fun _ => true), (mkInit false ∅ None "S" "N" None None None None None None None None None
    (Some 1000) (Some 77) [] None None).
  eexists. splits; vm_compute; reflexivity.
Qed.
Print Assumptions C40_drift_refuted.

(** Refuted: the collection metadata given are ignored. *)
Theorem C40_collection_metadata_refuted caller url_ok a kvs :
  init caller url_ok (mkInit (i_test_mode a) (i_permissions a) (i_description a) (i_symbol a) (i_name a) (i_logo a)
    (i_supply_cap a) (i_max_query a) (i_max_update a) (i_max_take a) (i_default_take a) (i_max_memo a) (i_atomic a)
    (i_tx_window a) (i_drift a) (i_threshold a) kvs (i_max_appr a) (i_max_revoke a)) = init caller url_ok a.
Proof. destruct a. reflexivity. Qed.
Print Assumptions C40_collection_metadata_refuted.

(** Installation is refused exactly for an invalid logo, a transaction window beyond 64 bits, or a zero approval limit. *)
Theorem C40_init_accepts caller url_ok a :
  is_Some (init caller url_ok a) <->
  (forall l, i_logo a = Some l -> url_ok l = true) /\ (forall w, i_tx_window a = Some w -> w < 2 ^ 64) /\
  i_max_revoke a <> Some 0 /\ i_max_appr a <> Some 0.
Proof.
  split.
  - intros [s Hi]. apply init_inv in Hi. destruct Hi as (H1 & H2 & H3 & H4 & _). splits; auto.
  - intros (H1 & H2 & H3 & H4). unfold init.
    assert (L : match i_logo a with Some l => negb (url_ok l) | None => false end = false).
    { destruct (i_logo a); [|reflexivity]. rewrite H1; reflexivity. }
    rewrite L. unfold u64_try.
    assert (W : exists x, match i_tx_window a with Some w => if w <? two64 then Some w else None | None => Some 0 end = Some x).
    { destruct (i_tx_window a) as [w|]; [|eauto]. specialize (H2 w eq_refl). change (2 ^ 64) with two64 in H2.
      apply N.ltb_lt in H2. rewrite H2. eauto. }
    destruct W as [x ->]. rewrite !bool_decide_eq_false_2 by assumption. eauto.
Qed.
Print Assumptions C40_init_accepts.

Example C40_example :
  is_Some (init admin (fun _ => true) demo_args) /\
  icrc7_supply_cap demo0 = Some 100 /\ icrc7_max_memo_size demo0 = Some 10 /\ icrc7_symbol demo0 = "SYM"%string /\
  holds demo0 admin PMinting /\ ~ holds demo0 alice PMinting.
Proof.
  split; [rewrite demo0_init; eauto|]. splits; try (vm_compute; reflexivity).
  - apply holds_iff; vm_compute; reflexivity.
  - apply holds_not_iff; vm_compute; reflexivity.
Qed.

(** ** C41 *)
Theorem C41_upgrade_preserves e s s' an :
  step e OUpgrade s = (s', an) ->
  an = AOk /\
  cfg s' = cfg s /\ perms s' = perms s /\ tokens s' = tokens s /\ by_owner s' = by_owner s /\ last_id s' = last_id s /\
  redirs s' = redirs s /\ subs s' = subs s /\ tok_appr s' = tok_appr s /\ col_appr s' = col_appr s /\
  metas s' = metas s /\ windows s' = windows s /\ guards s' = guards s /\ files s' = files s /\ log s' = log s.
Proof. simpl. intros [= <- <-]. rewrite upgrade_eq. splits; reflexivity. Qed.
Print Assumptions C41_upgrade_preserves.

(** All later calls but replies to lost calls are answered as without the upgrade. *)
Theorem C41_upgrade_invisible e s h :
  pend s = ∅ -> map ev_ans (trace h (fst (step e OUpgrade s))) = map ev_ans (trace h s) /\
  run h (fst (step e OUpgrade s)) = run h s.
Proof.
  intros P. assert (E : fst (step e OUpgrade s) = s); [|rewrite E; auto].
  simpl. rewrite upgrade_eq. destruct s; simpl in *; subst; reflexivity.
Qed.
Print Assumptions C41_upgrade_invisible.

Example C41_example :
  snd (step (from_ admin 9) OUpgrade demo2) = AOk /\ pend demo2 = ∅ /\
  let s' := fst (step (from_ admin 9) OUpgrade demo2) in
  icrc7_owner_of s' [1; 2; 3] = Some [Some (acct alice); Some (acct alice); Some (acct bob)] /\
  length (log s') = 5%nat /\
  token_approval s' 1 (acct bob) = token_approval demo2 1 (acct bob) /\ is_Some (token_approval s' 1 (acct bob)).
Proof.
  splits; try (vm_compute; reflexivity).
  - match goal with |- is_Some ?x => let y := eval vm_compute in x in assert (E : x = y) by (vm_compute; reflexivity) end.
    rewrite E. eauto.
Qed.
