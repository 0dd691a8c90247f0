(** C154: a further permission never does harm, and one that is not needed is never missed. *)
From Verif Require Import Base ModelPrincipal ModelState ModelIcrc7 ModelIcrc37 ModelManagement ModelLifecycle
  ModelQueries ModelStep ProofsItems ProofsManage ProofsMicro Spec ProofsCore ProofsLock Scenario PropertiesManage PropertiesPrivacy PropertiesMirror.

(** The ledger without the table of permissions. *)
Definition but_perms (s : state) :=
  (cfg s, tokens s, by_owner s, last_id s, redirs s, subs s, tok_appr s, col_appr s, metas s, windows s, guards s, files s, log s,
   lcalls s, pend s, next_pend s).

(** [s'] is [s] but that more is permitted. *)
Definition more (s s' : state) : Prop :=
  but_perms s = but_perms s' /\ forall p q, holds s p q -> holds s' p q.

(** The caller lacked the permission. *)
Definition lacking (a : answer) : Prop := exists m, a = AReject m.

(** ** One message *)

Lemma but_perms_set s s' : but_perms s = but_perms s' -> s' = set_perms (perms s') s.
Proof. unfold but_perms, set_perms. destruct s, s'; cbn. intros [=]. subst. reflexivity. Qed.
Lemma more_set q s : (forall p r, holds s p r -> holds (set_perms q s) p r) -> more s (set_perms q s).
Proof. intros H. split; [reflexivity|exact H]. Qed.

Lemma office_kept e o s : office o = false -> fst (step e o s) = swap s (fst (step e o s)).
Proof.
  intros O. assert (E : s = swap s s) by (destruct s; reflexivity).
  rewrite E at 1. rewrite step_swap; [reflexivity|exact O|reflexivity|reflexivity].
Qed.

Lemma entry_set e q s first :
  has_permission s (e_caller e) PUpdateUploads = true -> has_permission (set_perms q s) (e_caller e) PUpdateUploads = true ->
  (forall z, first (set_perms q z) = (set_perms q (fst (first z)), snd (first z))) ->
  ans_upload (upload_entry e (set_perms q s) first) =
    (set_perms q (fst (ans_upload (upload_entry e s first))), snd (ans_upload (upload_entry e s first))).
Proof.
  intros P P' F. unfold upload_entry. rewrite P, P', !guard_new_spec. change (guards (set_perms q s)) with (guards s).
  destruct (decide _); [|reflexivity].
  change (set_guards {[e_caller e]} (set_perms q s)) with (set_perms q (set_guards {[e_caller e]} s)).
  rewrite F. destruct (first _) as [s2 [er|p]]; reflexivity.
Qed.

Lemma first_set_init e q path size z :
  init_upload_first e path size (set_perms q z) =
    (set_perms q (fst (init_upload_first e path size z)), snd (init_upload_first e path size z)).
Proof.
  unfold init_upload_first. change (contains_path (set_perms q z)) with (contains_path z). destruct (contains_path z path); [reflexivity|].
  destruct (_ <? _); reflexivity.
Qed.
Lemma first_set_store e q k z :
  store_chunk_first e k (set_perms q z) = (set_perms q (fst (store_chunk_first e k z)), snd (store_chunk_first e k z)).
Proof.
  unfold store_chunk_first. change (files (set_perms q z)) with (files z). change (subs (set_perms q z)) with (subs z).
  destruct (files z !! k) as [u|]; [|reflexivity]. destruct (u_state u); try destruct (bool_decide _); reflexivity.
Qed.
Lemma first_set_finalize e q k z :
  finalize_upload_first e k (set_perms q z) = (set_perms q (fst (finalize_upload_first e k z)), snd (finalize_upload_first e k z)).
Proof.
  unfold finalize_upload_first. change (files (set_perms q z)) with (files z). change (subs (set_perms q z)) with (subs z).
  destruct (files z !! k) as [u|]; [|reflexivity]. destruct (u_state u); try destruct (bool_decide _); reflexivity.
Qed.
Lemma first_set_cancel e q k z :
  cancel_upload_first e k (set_perms q z) = (set_perms q (fst (cancel_upload_first e k z)), snd (cancel_upload_first e k z)).
Proof.
  unfold cancel_upload_first. change (files (set_perms q z)) with (files z). change (subs (set_perms q z)) with (subs z).
  destruct (files z !! k) as [u|]; [|reflexivity]. destruct (u_state u); try destruct (bool_decide _); reflexivity.
Qed.

Lemma entry_perms e s first :
  (forall s s1 r, first s = (s1, r) -> first_result e s s1 r) -> perms (fst (upload_entry e s first)) = perms s.
Proof.
  intros F. unfold upload_entry. destruct (has_permission _ _ _); [|reflexivity].
  rewrite guard_new_spec. destruct (decide _); [|reflexivity].
  destruct (first _) as [s2 [er|p]] eqn:E; apply F in E; destruct E; reflexivity.
Qed.

Lemma holds_grant p q m p' q' s :
  holds (set_perms (perm_grant p q m) s) p' q' <-> (exists l, m !! p' = Some l /\ q' ∈ l) \/ (p' = p /\ q' = q).
Proof.
  unfold holds. cbn [perms set_perms]. unfold perm_grant. destruct (decide (p' = p)) as [->|N].
  - rewrite lookup_insert. split.
    + intros (l & [= <-] & H). apply elem_of_app in H as [H|H]; [|right; apply elem_of_list_singleton in H; auto].
      destruct (m !! p) as [l|]; [left; eauto|inversion H].
    + intros H. eexists. split; [reflexivity|]. apply elem_of_app. destruct H as [(l & -> & H)|[_ ->]]; [left; exact H|right; set_solver].
  - rewrite lookup_insert_ne by congruence. split; [auto|]. intros [H|[-> _]]; [exact H|congruence].
Qed.
Lemma holds_revoke p q m p' q' s :
  holds (set_perms (perm_revoke p q m) s) p' q' <-> (exists l, m !! p' = Some l /\ q' ∈ l) /\ ~ (p' = p /\ q' = q).
Proof.
  unfold holds. cbn [perms set_perms]. unfold perm_revoke. destruct (m !! p) as [l|] eqn:E; [destruct (decide (p' = p)) as [->|N]|].
  - rewrite lookup_insert, E. split.
    + intros (l' & [= <-] & H). apply elem_of_list_filter in H as [N H]. split; [eauto|]. intros [_ X]. exact (N X).
    + intros [(l' & [= <-] & H) N]. eexists. split; [reflexivity|]. apply elem_of_list_filter. split; [|exact H]. intros X. apply N. auto.
  - rewrite lookup_insert_ne by congruence. split; [intros H; split; [exact H|intros [X _]; congruence]|intros [H _]; exact H].
  - split; [intros H; split; [exact H|]|intros [H _]; exact H]. intros [-> ->]. destruct H as (l' & H & _). congruence.
Qed.

(** Whatever is not refused for lack of permission is answered the same, and does the same, when more is permitted. *)
Theorem C154_step e o s s' :
  more s s' -> ~ lacking (snd (step e o s)) ->
  snd (step e o s') = snd (step e o s) /\ more (fst (step e o s)) (fst (step e o s')).
Proof.
  intros [B M] N. rewrite (but_perms_set s s' B) in M |- *. generalize dependent (perms s'). intros q M. clear B.
  assert (R : forall r, required o = Some r -> holds s (e_caller e) r).
  { intros r Rq. apply holds_iff. destruct (has_permission s (e_caller e) r) eqn:E; [reflexivity|]. exfalso. apply N.
    apply holds_not_iff in E. eexists. rewrite (C33_names_permission e o s r Rq E). reflexivity. }
  assert (H : forall r, required o = Some r -> has_permission s (e_caller e) r = true /\ has_permission (set_perms q s) (e_caller e) r = true).
  { intros r Rq. split; apply holds_iff; auto. }
  assert (K : forall z z', step e o (set_perms q s) = (set_perms q z, z') -> step e o s = (z, z') -> perms z = perms s ->
    snd (step e o (set_perms q s)) = snd (step e o s) /\ more (fst (step e o s)) (fst (step e o (set_perms q s)))).
  { intros z z' E1 E2 E3. rewrite E1, E2. split; [reflexivity|]. apply more_set. intros p r X. unfold holds in X. cbn [fst] in X. rewrite E3 in X.
    exact (M p r X). }
  destruct (office o) eqn:O.
  - destruct o; try discriminate O.
    + rewrite !step_grant. destruct (H _ eq_refl) as [-> ->]. change (guards (set_perms q s)) with (guards s).
      destruct (decide _); cbn [fst snd]; split; try reflexivity; [|apply more_set; exact M].
      change (set_perms (perm_grant p perm (perms (set_perms q s))) (set_perms q s)) with (set_perms (perm_grant p perm q) s).
      split; [reflexivity|]. intros p' q'. rewrite !holds_grant. intros [X|X]; [left; exact (M p' q' X)|right; exact X].
    + rewrite !step_revoke_perm. destruct (H _ eq_refl) as [-> ->]. change (guards (set_perms q s)) with (guards s).
      destruct (decide _); cbn [fst snd]; split; try reflexivity; [|apply more_set; exact M].
      change (set_perms (perm_revoke p perm (perms (set_perms q s))) (set_perms q s)) with (set_perms (perm_revoke p perm q) s).
      split; [reflexivity|]. intros p' q'. rewrite !holds_revoke. intros [X Y]. split; [exact (M p' q' X)|exact Y].
    + destruct (H _ eq_refl) as [P P'].
      eapply K; [exact (entry_set e q s _ P P' (first_set_init e q path size))|apply surjective_pairing|].
      cbn [step]. rewrite ans_upload_fst. apply entry_perms; intros; eapply init_first_inv; eauto.
    + destruct (H _ eq_refl) as [P P'].
      eapply K; [exact (entry_set e q s _ P P' (first_set_store e q path))|apply surjective_pairing|].
      cbn [step]. rewrite ans_upload_fst. apply entry_perms; intros; eapply store_first_inv; eauto.
    + destruct (H _ eq_refl) as [P P'].
      eapply K; [exact (entry_set e q s _ P P' (first_set_finalize e q path))|apply surjective_pairing|].
      cbn [step]. rewrite ans_upload_fst. apply entry_perms; intros; eapply finalize_first_inv; eauto.
    + destruct (H _ eq_refl) as [P P'].
      eapply K; [exact (entry_set e q s _ P P' (first_set_cancel e q path))|apply surjective_pairing|].
      cbn [step]. rewrite ans_upload_fst. apply entry_perms; intros; eapply cancel_first_inv; eauto.
    + cbn [step]. unfold resume. change (pend (set_perms q s)) with (pend s).
      destruct (pend s !! id) as [p|]; [|split; [reflexivity|apply more_set; exact M]].
      destruct p, r; (split; [reflexivity|split; [reflexivity|exact M]]).
    + cbn [step fst snd]. rewrite !upgrade_eq. split; [reflexivity|]. split; [reflexivity|exact M].
  - assert (E : set_perms q s = swap (set_perms q s) s) by (destruct s; reflexivity).
    assert (F := office_kept e o s O).
    eapply K; [rewrite E, step_swap; [|exact O| |reflexivity]; [|]|apply surjective_pairing|rewrite F; reflexivity].
    + f_equal. rewrite F. reflexivity.
    + intros r Rq. split; intros _; auto.
Qed.
Print Assumptions C154_step.

(** ** Histories *)

(** The answers along a history. *)
Definition answers (h : history) (s : state) : list answer := map ev_ans (trace h s).

(** As long as nobody is refused for lack of permission, further permissions change none of the answers and nothing else in the
    ledger.  Read backwards: permissions that are not used may be withdrawn unnoticed. *)
Theorem C154_history h s s' :
  more s s' -> Forall (fun a => ~ lacking a) (answers h s) ->
  answers h s' = answers h s /\ more (run h s) (run h s').
Proof.
  unfold answers. revert s s'. induction h as [|[e o] h IH]; intros s s' M N; [split; [reflexivity|exact M]|].
  cbn [trace run] in *. destruct (step e o s) as [s1 a] eqn:E. cbn [map ev_ans] in N. apply Forall_cons_1 in N as [N1 N2].
  assert (X := C154_step e o s s' M). rewrite E in X. specialize (X N1) as [A M1]. destruct (step e o s') as [s1' a'].
  cbn [fst snd map ev_ans] in *. destruct (IH s1 s1' M1 N2) as [A2 M2]. split; [congruence|exact M2].
Qed.
Print Assumptions C154_history.

(** ** Reads *)

(** A guarded read that is answered is answered the same when more is permitted (what a user holds only grows). *)
Theorem C154_reads s s' c :
  more s s' ->
  (forall p q, query_has_permission s c p q = Some true -> query_has_permission s' c p q = Some true) /\
  (get_all_storage_subcanisters s c <> None -> get_all_storage_subcanisters s' c = get_all_storage_subcanisters s c) /\
  (forall path, query_upload_status s c path <> None -> query_upload_status s' c path = query_upload_status s c path) /\
  (forall order prev tk, get_all_uploads order s c prev tk <> None -> get_all_uploads order s' c prev tk = get_all_uploads order s c prev tk).
Proof.
  intros [B M]. rewrite (but_perms_set s s' B) in M |- *. generalize dependent (perms s'). intros q M. clear B s'.
  assert (H : forall p r, has_permission s p r = true -> has_permission (set_perms q s) p r = true).
  { intros p r X. apply holds_iff, M, holds_iff, X. }
  splits.
  - intros p r. unfold query_has_permission. destruct (has_permission s c _) eqn:E; [|discriminate]. rewrite (H _ _ E).
    intros [= X]. rewrite (H _ _ X). reflexivity.
  - unfold get_all_storage_subcanisters. destruct (has_permission s c _) eqn:E; [|congruence]. rewrite (H _ _ E). reflexivity.
  - intros path. unfold query_upload_status. destruct (has_permission s c _) eqn:E; [|congruence]. rewrite (H _ _ E). reflexivity.
  - intros order prev tk. unfold get_all_uploads. destruct (has_permission s c _) eqn:E; [|congruence]. rewrite (H _ _ E). reflexivity.
Qed.
Print Assumptions C154_reads.

(** ** Example *)

(** carol is granted Minting or is not: a history without a call by carol is the same; a mint by carol is refused in the one and
    done in the other. *)
Definition carol_mints : state := fst (step (from_ admin 0) (OGrant carol PMinting) demo2).
Example C154_example :
  reachable demo2 /\ reachable carol_mints /\ more demo2 carol_mints /\ ~ holds demo2 carol PMinting /\ holds carol_mints carol PMinting /\
  (let h := [(from_ alice 3000000000, OTransfer [xfer bob 1]); (from_ admin 3000000001, OGrant bob PReadUploads)] in
   answers h demo2 = [ABatch [Ok 5]; AOk] /\ answers h carol_mints = [ABatch [Ok 5]; AOk]) /\
  lacking (snd (step (from_ carol 3000000000) mint3 demo2)) /\
  snd (step (from_ carol 3000000000) mint3 carol_mints) = ANat 4.
Proof.
  split; [apply demo_reachable|]. split; [apply run_reachable_step, demo_reachable|].
  assert (G : carol_mints = set_perms (perm_grant carol PMinting (perms demo2)) demo2).
  { unfold carol_mints. rewrite step_grant. replace (has_permission demo2 _ _) with true by (vm_compute; reflexivity).
    rewrite decide_True; [reflexivity|]. apply set_empty_size. vm_compute. reflexivity. }
  split. { rewrite G. apply more_set. intros p r X. apply holds_grant. left. exact X. }
  split. { apply holds_not_iff. vm_compute. reflexivity. }
  split. { apply holds_iff. vm_compute. reflexivity. }
  split; [split; vm_compute; reflexivity|].
  split; [eexists|]; vm_compute; reflexivity.
Qed.
