(** Permissions and the management lock. *)
From Verif Require Import Base ModelPrincipal ModelState ModelIcrc7 ModelIcrc37 ModelManagement ModelLifecycle
  ModelQueries ModelStep ProofsItems ProofsManage ProofsMicro Spec ProofsCore.

Lemma holds_iff s p q : has_permission s p q = true <-> holds s p q.
Proof.
  unfold has_permission, holds. destruct (perms s !! p) as [l|].
  - rewrite bool_decide_eq_true. split; [eauto|]. intros (l' & [= <-] & H). exact H.
  - split; [discriminate|]. intros (l' & H & _). discriminate.
Qed.

Lemma holds_not_iff s p q : has_permission s p q = false <-> ~ holds s p q.
Proof. rewrite <- holds_iff. destruct (has_permission s p q); split; congruence. Qed.

Lemma holds_same s s' p q : perms s' = perms s -> holds s' p q <-> holds s p q.
Proof. intros E. unfold holds. rewrite E. reflexivity. Qed.

Lemma holds_grant s p q p' q' :
  holds (set_perms (perm_grant p q (perms s)) s) p' q' <-> holds s p' q' \/ (p' = p /\ q' = q).
Proof.
  unfold holds, perm_grant. simpl. destruct (decide (p = p')) as [<-|Hne].
  - rewrite lookup_insert. split.
    + intros (l & [= <-] & H). apply elem_of_app in H. destruct H as [H|H].
      * left. destruct (perms s !! p) as [l|]; [|apply elem_of_nil in H; destruct H]. eauto.
      * apply elem_of_list_singleton in H. auto.
    + intros [(l & H1 & H2)|[_ ->]]; (eexists; split; [reflexivity|]); apply elem_of_app.
      * left. rewrite H1. exact H2.
      * right. left.
  - rewrite lookup_insert_ne by exact Hne. split; [eauto|]. intros [H|[-> _]]; [exact H|congruence].
Qed.

Lemma holds_revoke s p q p' q' :
  holds (set_perms (perm_revoke p q (perms s)) s) p' q' <-> holds s p' q' /\ ~ (p' = p /\ q' = q).
Proof.
  unfold holds, perm_revoke. simpl. destruct (perms s !! p) as [l|] eqn:E.
  - destruct (decide (p = p')) as [<-|Hne].
    + rewrite lookup_insert. split.
      * intros (l' & [= <-] & H). apply elem_of_list_filter in H. destruct H as [H1 H2]. split; [eauto|tauto].
      * intros [(l' & H1 & H2) H3]. eexists. split; [reflexivity|]. apply elem_of_list_filter.
        split; [tauto|congruence].
    + rewrite lookup_insert_ne by exact Hne. split; [|tauto]. intros H. split; [exact H|]. intros [-> _]. congruence.
  - split; [|tauto]. intros H. split; [exact H|]. intros [-> ->]. destruct H as (l & H & _). congruence.
Qed.

Lemma micro_perms e o s s' : micro e o s s' ->
  perms s' = perms s \/
  (exists p q, o = OGrant p q /\ guards s = ∅ /\ has_permission s (e_caller e) PManageAuthorities = true /\ s' = set_perms (perm_grant p q (perms s)) s) \/
  (exists p q, o = ORevokePerm p q /\ guards s = ∅ /\ has_permission s (e_caller e) PManageAuthorities = true /\ s' = set_perms (perm_revoke p q (perms s)) s).
Proof.
  intros H. micro_cases H; try (left; reflexivity); try (destruct p, r; left; reflexivity).
  - right. left. eauto 10.
  - right. right. eauto 10.
Qed.

Lemma step_perms e o s :
  (forall p q, o <> OGrant p q) -> (forall p q, o <> ORevokePerm p q) -> perms (fst (step e o s)) = perms s.
Proof.
  intros H1 H2. symmetry. apply (step_rel (fun _ => True) (fun a b => perms a = perms b)); auto; [congruence|].
  intros s1 s2 _ M. split; [exact I|]. apply micro_perms in M. destruct M as [->|[(p & q & -> & _)|(p & q & -> & _)]].
  - reflexivity.
  - destruct (H1 p q eq_refl).
  - destruct (H2 p q eq_refl).
Qed.

Lemma step_grant e p q s :
  step e (OGrant p q) s =
    if has_permission s (e_caller e) PManageAuthorities then
      if decide (guards s = ∅) then (set_perms (perm_grant p q (perms s)) s, AOk) else (s, AErr EConcurrentManagementCall)
    else (s, AReject "Caller does not have manage authorities permission").
Proof.
  simpl. unfold grant_permission, with_permission. destruct (has_permission _ _ _); [|reflexivity].
  rewrite (with_lock_eq _ _ _ (commutes_perm (perm_grant p q))). destruct (decide _); reflexivity.
Qed.

Lemma step_revoke_perm e p q s :
  step e (ORevokePerm p q) s =
    if has_permission s (e_caller e) PManageAuthorities then
      if decide (guards s = ∅) then (set_perms (perm_revoke p q (perms s)) s, AOk) else (s, AErr EConcurrentManagementCall)
    else (s, AReject "Caller does not have manage authorities permission").
Proof.
  simpl. unfold revoke_permission, with_permission. destruct (has_permission _ _ _); [|reflexivity].
  rewrite (with_lock_eq _ _ _ (commutes_perm (perm_revoke p q))). destruct (decide _); reflexivity.
Qed.

Lemma step_no_permission e o s perm :
  required o = Some perm -> has_permission s (e_caller e) perm = false -> exists msg, step e o s = (s, AReject msg).
Proof.
  intros R H. destruct o; try discriminate; injection R as <-; simpl;
    unfold update_collection_metadata, mint, update_nft_metadata, grant_permission, revoke_permission, with_permission,
      init_upload, store_chunk, finalize_upload, cancel_upload, upload_entry; rewrite H; eexists; reflexivity.
Qed.

Lemma step_locked e o s :
  exclusive o -> guards s <> ∅ ->
  step e o s = (s, AErr EConcurrentManagementCall) \/
  (exists perm msg, required o = Some perm /\ ~ holds s (e_caller e) perm /\ step e o s = (s, AReject msg)).
Proof.
  intros X G. destruct (required o) as [perm|] eqn:R.
  - destruct (has_permission s (e_caller e) perm) eqn:P.
    + left. destruct o; try discriminate; injection R as <-; simpl;
      unfold update_collection_metadata, mint, update_nft_metadata, grant_permission, revoke_permission, with_permission,
        init_upload, store_chunk, finalize_upload, cancel_upload, upload_entry, with_lock; rewrite P, guard_new_spec;
        rewrite decide_False by exact G; reflexivity.
    + right. destruct (step_no_permission e o s perm R P) as [msg E]. exists perm, msg. split; [reflexivity|].
      split; [apply holds_not_iff; exact P|exact E].
  - destruct X as [X|[t ->]]; [congruence|]. left. simpl. unfold burn_nft, with_lock. rewrite guard_new_spec.
    rewrite decide_False by exact G. reflexivity.
Qed.

(** A pending call holds the lock; at most one is pending. *)
Definition lock_inv (s : state) : Prop :=
  (size (pend s) <= 1)%nat /\ (forall id p, pend s !! id = Some p -> guards s = {[pending_caller p]}).

Lemma first_result_caller e s s1 p : first_result e s s1 (inr p) -> pending_caller p = e_caller e.
Proof. intros H. inversion H; reflexivity. Qed.

Lemma continue_frame now p r s :
  guards (fst (continue now p r s)) = guards s /\ pend (fst (continue now p r s)) = pend s /\
  next_pend (fst (continue now p r s)) = next_pend s.
Proof. destruct p, r; auto. Qed.

Lemma size_le_1 {A} (m : gmap N A) i x : (size m <= 1)%nat -> m !! i = Some x -> m = {[i := x]}.
Proof.
  intros H L. assert (E : delete i m = ∅).
  { apply map_size_empty_inv. rewrite map_size_delete, L. lia. }
  rewrite <- (insert_delete m i x L), E. reflexivity.
Qed.

Ltac micro_split H := destruct H; open_quiet; cbn [fst snd].

Lemma lock_inv_micro e o s s' : lock_inv s -> micro e o s s' -> lock_inv s'.
Proof.
  intros [L1 L2] H. micro_split H; try (split; simpl; assumption).
  - (* wait *)
    match goal with G : guards s = ∅ |- _ => rename G into Hg end.
    assert (E : pend s = ∅).
    { apply map_empty. intros id. destruct (pend s !! id) as [x|] eqn:X; [|reflexivity].
      apply L2 in X. exfalso. rewrite X in Hg. revert Hg. apply non_empty_singleton_L. }
    split; simpl; rewrite E.
    + rewrite map_size_insert, lookup_empty, map_size_empty. lia.
    + intros id p' X. apply lookup_insert_Some in X. destruct X as [[_ <-]|[_ X]]; [|rewrite lookup_empty in X; discriminate].
      match goal with F : first_result _ _ _ _ |- _ => rewrite (first_result_caller _ _ _ _ F) end. reflexivity.
  - (* reply *)
    pose proof (continue_frame (e_now e) p r s) as (F1 & F2 & F3).
    match goal with G : pend s !! _ = Some _ |- _ => rename G into Hp end.
    pose proof (size_le_1 _ _ _ L1 Hp) as E. split; simpl; rewrite F2, E, delete_singleton.
    + rewrite map_size_empty. lia.
    + intros x y X. rewrite lookup_empty in X. discriminate.
  - split; simpl; [rewrite map_size_empty; lia|]. intros x y X. rewrite lookup_empty in X. discriminate.
Qed.

Lemma init_lock_inv caller url_ok a s : init caller url_ok a = Some s -> lock_inv s /\ guards s = ∅ /\ pend s = ∅.
Proof.
  intros Hi. apply init_inv in Hi. destruct Hi as (_ & _ & _ & _ & ->). simpl. split; [|auto].
  split; simpl; [rewrite map_size_empty; lia|]. intros x y X. rewrite lookup_empty in X. discriminate.
Qed.

Lemma reachable_lock_inv s : reachable s -> lock_inv s.
Proof.
  intros (c & u & a & s0 & h & Hi & ->). apply run_inv; [intros; eapply lock_inv_micro; eauto|].
  eapply init_lock_inv; eauto.
Qed.

(** Lock free whenever nothing is pending. *)
Definition free_inv (s : state) : Prop := lock_inv s /\ (pend s = ∅ -> guards s = ∅).

Lemma free_inv_micro e o s s' : free_inv s -> micro e o s s' -> (o = OUpgrade -> pend s = ∅) -> free_inv s'.
Proof.
  intros [L F] H U. split; [eapply lock_inv_micro; eauto|].
  micro_split H; try (simpl; assumption).
  - simpl. intros E. exfalso. apply (insert_non_empty (pend s) (next_pend s) p). exact E.
  - intros _. simpl. pose proof (continue_frame (e_now e) p r s) as (F1 & F2 & F3).
    rewrite F1. destruct L as [_ L]. match goal with G : pend s !! _ = Some _ |- _ => rewrite (L _ _ G) end. apply difference_diag_L.
  - intros _. simpl. auto.
Qed.

Lemma micro_upgrade_pend e s s' : micro e OUpgrade s s' -> pend s = ∅ -> pend s' = ∅.
Proof.
  remember OUpgrade as o eqn:O. intros H P. destruct H; try discriminate O; open_quiet; simpl; auto.
  exfalso. repeat match goal with Q : _ \/ _ |- _ => destruct Q | Q : exists _, _ |- _ => destruct Q end; congruence.
Qed.

Lemma free_inv_trace h s : calm (trace h s) -> free_inv s -> free_inv (run h s).
Proof.
  revert s. induction h as [|[e o] h IH]; intros s C F; simpl in *; [exact F|].
  destruct (step e o s) as [s1 an] eqn:S. simpl in *. inversion C as [|? ? C1 C2]; subst. simpl in C1.
  apply IH; [exact C2|].
  assert (X : free_inv (fst (step e o s))).
  { destruct (decide (pend s = ∅)) as [E|E].
    - assert (Y : (o = OUpgrade -> pend (fst (step e o s)) = ∅) /\ free_inv (fst (step e o s))).
      { apply (step_inv (fun s => (o = OUpgrade -> pend s = ∅) /\ free_inv s)).
        - intros a b [P Q] M. split; [|eapply free_inv_micro; eauto]. intros ->. specialize (P eq_refl).
          eapply micro_upgrade_pend; eauto.
        - auto. }
      apply Y.
    - apply (step_inv free_inv); [|exact F]. intros a b Q M. eapply free_inv_micro; eauto. intros ->. destruct (E (C1 eq_refl)). }
  rewrite S in X. exact X.
Qed.

(** Stuck: the lock is held and nobody is there to release it. *)
Definition stuck (s : state) : Prop := guards s <> ∅ /\ pend s = ∅.

Lemma stuck_micro e o s s' : stuck s -> micro e o s s' -> stuck s'.
Proof.
  intros [G P] H. micro_split H; try (split; simpl; assumption); try (split; simpl; auto; fail); try contradiction.
  match goal with G : pend s !! _ = Some _ |- _ => rewrite P, lookup_empty in G; discriminate end.
Qed.

Lemma stuck_run h s : stuck s -> stuck (run h s).
Proof. apply run_inv. intros. eapply stuck_micro; eauto. Qed.

Lemma trace_step h s ev :
  ev ∈ trace h s ->
  step (ev_env ev) (ev_op ev) (ev_before ev) = (ev_after ev, ev_ans ev) /\
  exists h1 h2, h = h1 ++ (ev_env ev, ev_op ev) :: h2 /\ ev_before ev = run h1 s.
Proof.
  revert s. induction h as [|[e o] h IH]; intros s H; simpl in H; [apply elem_of_nil in H; destruct H|].
  destruct (step e o s) as [s1 an] eqn:S. apply elem_of_cons in H. destruct H as [->|H].
  - simpl. split; [exact S|]. exists [], h. auto.
  - apply IH in H. destruct H as (H1 & h1 & h2 & -> & H2). split; [exact H1|]. exists ((e, o) :: h1), h2. simpl.
    rewrite S. auto.
Qed.

Lemma step_holds e o s s' an p q :
  step e o s = (s', an) ->
  (holds s' p q <-> holds s p q) \/
  (an = AOk /\ holds s (e_caller e) PManageAuthorities /\
   ((o = OGrant p q /\ holds s' p q) \/ (o = ORevokePerm p q /\ ~ holds s' p q))).
Proof.
  intros S.
  assert (D : (exists p0 q0, o = OGrant p0 q0) \/ (exists p0 q0, o = ORevokePerm p0 q0) \/
              ((forall p0 q0, o <> OGrant p0 q0) /\ (forall p0 q0, o <> ORevokePerm p0 q0))).
  { destruct o; eauto; right; right; split; discriminate. }
  destruct D as [(p0 & q0 & ->)|[(p0 & q0 & ->)|[D1 D2]]].
  - rewrite step_grant in S. destruct (has_permission _ _ _) eqn:P; [|injection S as <- <-; left; reflexivity].
    destruct (decide _); injection S as <- <-; [|left; reflexivity].
    destruct (decide (p = p0 /\ q = q0)) as [[-> ->]|Hne].
    + right. split; [reflexivity|]. split; [apply holds_iff; exact P|]. left. split; [reflexivity|].
      apply holds_grant. auto.
    + left. rewrite holds_grant. tauto.
  - rewrite step_revoke_perm in S. destruct (has_permission _ _ _) eqn:P; [|injection S as <- <-; left; reflexivity].
    destruct (decide _); injection S as <- <-; [|left; reflexivity].
    destruct (decide (p = p0 /\ q = q0)) as [[-> ->]|Hne].
    + right. split; [reflexivity|]. split; [apply holds_iff; exact P|]. right. split; [reflexivity|].
      rewrite holds_revoke. tauto.
    + left. rewrite holds_revoke. tauto.
  - left. apply holds_same. pose proof (step_perms e o s D1 D2) as X. rewrite S in X. exact X.
Qed.

(** Only the four upload calls wait for another canister. *)
Lemma step_pending e o s s' :
  step e o s = (s', APending) -> required o = Some PUpdateUploads /\ pend s' <> ∅.
Proof.
  assert (B : forall r, ans_batch s r <> (s', APending)) by (intros [[? ?]|]; discriminate).
  assert (U : forall r, ans_unit s r <> (s', APending)) by (intros [[? [|[]|]]|]; discriminate).
  assert (T : forall r, ans_nat s r <> (s', APending)) by (intros [[? []]|]; discriminate).
  assert (W : forall first, ans_upload (upload_entry e s first) = (s', APending) -> pend s' <> ∅).
  { intros first. unfold upload_entry. destruct (has_permission _ _ _); [|discriminate].
    destruct (guard_new _ _) as [s1|]; [|discriminate]. destruct (first s1) as [s2 [er|p]]; [discriminate|].
    simpl. intros [= <-]. simpl. apply insert_non_empty. }
  destruct o; simpl; intros S; try (exfalso; revert S; first [apply B|apply U|apply T]; fail);
    try (split; [reflexivity|eapply W; exact S]); exfalso; revert S.
  - destruct (icrc37_revoke_token_approvals _ _ _) as [[? []]|]; discriminate.
  - destruct (resume _ _ _ _) as [? [[]|]]; discriminate.
  - discriminate.
Qed.
