(** C148: each permission gives power over its own part of the ledger only. *)
From Verif Require Import Base ModelPrincipal ModelState ModelIcrc7 ModelIcrc37 ModelManagement ModelLifecycle
  ModelQueries ModelStep ProofsItems ProofsManage ProofsMicro Spec ProofsCore ProofsLock ProofsMeta ProofsUploads Scenario
  PropertiesManage PropertiesFrame PropertiesUploads PropertiesMirror.

(** The settings change only by a call to update them. *)
Lemma step_cfg e o s : (forall u, o <> OUpdateCollection u) -> cfg (fst (step e o s)) = cfg s.
Proof.
  intros H. symmetry. apply (step_rel (fun _ => True) (fun a b => cfg a = cfg b)); auto; [congruence|].
  intros s1 s2 _ M. split; [exact Logic.I|]. micro_cases M; try reflexivity. destruct (H _ eq_refl).
Qed.

(** Uploads, redirections and storage canisters. *)
Definition upload_part (s : state) : gmap string upload * gmap string string * list principal := (files s, redirs s, subs s).

Lemma step_upload_part e o s :
  required o <> Some PUpdateUploads -> (forall id r, o <> OReply id r) -> upload_part (fst (step e o s)) = upload_part s.
Proof.
  intros H H2. symmetry. apply (step_rel (fun _ => True) (fun a b => upload_part a = upload_part b)); auto; [congruence|].
  intros s1 s2 _ M. split; [exact Logic.I|]. micro_cases M; try reflexivity;
    try (exfalso; repeat match goal with Q : _ \/ _ |- _ => destruct Q | Q : exists _, _ |- _ => destruct Q end; subst; apply H; reflexivity);
    destruct (H2 _ _ eq_refl).
Qed.

(** The caller of a waiting call held the permission, and holds it still: permissions cannot be changed meanwhile. *)
Definition pend_ok (s : state) : Prop := forall id p, pend s !! id = Some p -> holds s (pending_caller p) PUpdateUploads.

Lemma pend_ok_micro e o s s' : lock_inv s /\ pend_ok s -> micro e o s s' -> lock_inv s' /\ pend_ok s'.
Proof.
  intros [L O] M. split; [eapply lock_inv_micro; eauto|].
  pose proof (micro_perms _ _ _ _ M) as P.
  destruct P as [P|[(p & q & -> & G & _ & ->)|(p & q & -> & G & _ & ->)]].
  - assert (X : forall id p, pend s' !! id = Some p -> pend s !! id = Some p \/ holds s (pending_caller p) PUpdateUploads).
    { clear P. micro_split M; try (intros; left; assumption).
      - intros id p'. simpl. intros X. apply lookup_insert_Some in X. destruct X as [[_ <-]|[_ X]]; [|auto].
        right. apply holds_iff. match goal with F : first_result _ _ _ _ |- _ => rewrite (first_result_caller _ _ _ _ F) end. assumption.
      - intros id' p'. simpl. pose proof (continue_frame (e_now e) p r s) as (_ & F2 & _). rewrite F2.
        intros X. apply lookup_delete_Some in X. destruct X as [_ X]. auto.
      - intros id p'. simpl. rewrite lookup_empty. discriminate. }
    intros id p H. apply (holds_same s s'); [exact P|]. destruct (X _ _ H) as [Y|Y]; [eapply O; exact Y|exact Y].
  - intros id p' H. simpl in H. destruct L as [_ L]. apply L in H. rewrite G in H. symmetry in H.
    exfalso. revert H. apply non_empty_singleton_L.
  - intros id p' H. simpl in H. destruct L as [_ L]. apply L in H. rewrite G in H. symmetry in H.
    exfalso. revert H. apply non_empty_singleton_L.
Qed.

Theorem C148_waiting_caller_holds s id p :
  reachable s -> pend s !! id = Some p -> holds s (pending_caller p) PUpdateUploads.
Proof.
  intros (c & u & a & s0 & h & Hi & ->). apply (run_inv (fun s => lock_inv s /\ pend_ok s)).
  - intros. eapply pend_ok_micro; eauto.
  - pose proof (init_lock_inv _ _ _ _ Hi) as (L & _ & P). split; [exact L|].
    intros i q H. rewrite P, lookup_empty in H. discriminate.
Qed.
Print Assumptions C148_waiting_caller_holds.

(** One message: which part it changed tells which kind of call it is and which permission its sender holds. *)
Theorem C148_own_part e o s :
  reachable s ->
  let s' := fst (step e o s) in
  let can perm := required o = Some perm /\ holds s (e_caller e) perm in
  (cfg s' <> cfg s -> can PUpdateCollectionMetadata) /\
  (perms s' <> perms s -> can PManageAuthorities) /\
  (forall t, owners s !! t = None -> owners s' !! t <> None -> can PMinting) /\
  (last_id s' <> last_id s -> can PMinting) /\
  (forall t k, is_Some (owners s !! t) -> meta_of s' t k <> meta_of s t k -> can PUpdateMetadata) /\
  (files s' <> files s \/ redirs s' <> redirs s \/ subs s' <> subs s ->
     can PUpdateUploads \/
     exists id r p, o = OReply id r /\ pend s !! id = Some p /\ holds s (pending_caller p) PUpdateUploads).
Proof.
  intros R s' can.
  assert (C : forall perm, required o = Some perm -> s' <> s -> can perm).
  { intros perm Rq D. destruct (has_permission s (e_caller e) perm) eqn:P; [split; [exact Rq|apply holds_iff; exact P]|].
    destruct (step_no_permission e o s perm Rq P) as [msg X]. exfalso. apply D. unfold s'. rewrite X. reflexivity. }
  split; [|split; [|split; [|split; [|split]]]].
  - intros D. destruct o; try (exfalso; apply D; apply step_cfg; discriminate).
    apply (C PUpdateCollectionMetadata eq_refl). congruence.
  - intros D. destruct o; try (exfalso; apply D; apply step_perms; discriminate);
      apply (C PManageAuthorities eq_refl); congruence.
  - intros t N0 D. destruct o; try (exfalso; apply D; apply C101_no_token_from_nothing; [exact R|exact N0|discriminate]).
    apply (C PMinting eq_refl). intros E. rewrite E in D. contradiction.
  - intros D. destruct o; try (exfalso; apply D; apply step_last_id; exact (fun x => x)).
    apply (C PMinting eq_refl). congruence.
  - intros t k T D.
    assert (M : required o = Some PUpdateMetadata \/ ~ mentions t o \/ metas s' = metas s).
    { destruct o; auto; try (right; left; simpl; tauto); right; right; unfold s';
        symmetry; apply (step_rel (fun _ => True) (fun a b => metas a = metas b)); auto; try congruence;
        intros s1 s2 _ Mi; (split; [exact Logic.I|]);
        match type of Mi with micro _ ?o _ _ => remember o as o' eqn:Ho end;
        micro_cases Mi; try reflexivity; try discriminate Ho. }
    destruct M as [M|[M|M]].
    + apply (C _ M). intros E. rewrite E in D. contradiction.
    + exfalso. apply D. destruct (C101_unnamed_token e o s t R T M) as (_ & _ & G). apply G.
    + exfalso. apply D. unfold meta_of. rewrite M. reflexivity.
  - intros D.
    assert (U : upload_part s' <> upload_part s).
    { unfold upload_part. intros [= E1 E2 E3]. destruct D as [D|[D|D]]; contradiction. }
    destruct (decide (required o = Some PUpdateUploads)) as [Rq|Rq].
    + left. apply (C _ Rq). congruence.
    + right. destruct o as [| | | | | | | | | | | | | | | |id r|];
        try (exfalso; apply U; apply step_upload_part; [exact Rq|discriminate]; fail).
      destruct (pend s !! id) as [p|] eqn:P.
      * exists id, r, p. split; [reflexivity|]. split; [exact P|]. eapply C148_waiting_caller_holds; eauto.
      * exfalso. apply U. unfold s'. simpl. unfold resume. rewrite P. reflexivity.
Qed.
Print Assumptions C148_own_part.

(** Somebody holding [q] made a call of the kind that needs [q]. *)
Definition acted (q : permission) (h : history) (s : state) : Prop :=
  exists ev, ev ∈ trace h s /\ required (ev_op ev) = Some q /\ holds (ev_before ev) (e_caller (ev_env ev)) q.

Lemma acted_cons q e o h s :
  ~ acted q ((e, o) :: h) s ->
  ~ (required o = Some q /\ holds s (e_caller e) q) /\ ~ acted q h (fst (step e o s)).
Proof.
  intros H. split.
  - intros [H1 H2]. apply H. cbn [trace]. unfold acted. simpl. destruct (step e o s) as [s1 an].
    eexists. split; [left|]. simpl. auto.
  - intros (ev & H1 & H2). apply H. unfold acted. simpl. destruct (step e o s) as [s1 an]. exists ev. split; [right; exact H1|exact H2].
Qed.

(** A value that only such calls change stays as it is. *)
Lemma unacted {A} (f : state -> A) q h s :
  (forall e o s, reachable s -> ~ (required o = Some q /\ holds s (e_caller e) q) -> f (fst (step e o s)) = f s) ->
  reachable s -> ~ acted q h s -> f (run h s) = f s.
Proof.
  intros F. revert s. induction h as [|[e o] h IH]; intros s R N0; [reflexivity|].
  apply acted_cons in N0. destruct N0 as [N1 N2]. cbn [run].
  rewrite (IH _ (run_reachable_step e o s R) N2). apply F; assumption.
Qed.

(** A call without the permission, or of another kind. *)
Lemma step_unacted e o s q : ~ (required o = Some q /\ holds s (e_caller e) q) -> required o = Some q -> fst (step e o s) = s.
Proof.
  intros N0 Rq. destruct (has_permission s (e_caller e) q) eqn:P; [apply holds_iff in P; tauto|].
  destruct (step_no_permission e o s q Rq P) as [msg X]. rewrite X. reflexivity.
Qed.

(** Over a history: as long as nobody with the permission makes a call of its kind, its part stays as it was. *)
Theorem C148_nobody_acted h s :
  reachable s ->
  (~ acted PUpdateCollectionMetadata h s -> cfg (run h s) = cfg s) /\
  (~ acted PManageAuthorities h s -> perms (run h s) = perms s) /\
  (~ acted PMinting h s ->
     last_id (run h s) = last_id s /\ forall t, owners s !! t = None -> owners (run h s) !! t = None) /\
  (~ acted PUpdateMetadata h s -> forall t k, t < last_id s -> meta_of (run h s) t k = meta_of s t k) /\
  (~ acted PUpdateUploads h s -> pend s = ∅ ->
     files (run h s) = files s /\ redirs (run h s) = redirs s /\ subs (run h s) = subs s /\ pend (run h s) = ∅).
Proof.
  intros R. split; [|split; [|split; [|split]]].
  - intros N0. apply (unacted cfg PUpdateCollectionMetadata); auto. intros e o s1 _ N1.
    destruct o; try (apply step_cfg; discriminate). rewrite (step_unacted _ _ _ _ N1 eq_refl). reflexivity.
  - intros N0. apply (unacted perms PManageAuthorities); auto. intros e o s1 _ N1.
    destruct o; try (apply step_perms; discriminate); rewrite (step_unacted _ _ _ _ N1 eq_refl); reflexivity.
  - intros N0. split.
    + apply (unacted last_id PMinting); auto. intros e o s1 _ N1.
      destruct o; try (apply step_last_id; exact (fun x => x)). rewrite (step_unacted _ _ _ _ N1 eq_refl). reflexivity.
    + intros t. revert s R N0. induction h as [|[e o] h IH]; intros s R N0 Ht; [exact Ht|].
      apply acted_cons in N0. destruct N0 as [N1 N2]. cbn [run].
      apply (IH _ (run_reachable_step e o s R) N2).
      destruct o; try (apply C101_no_token_from_nothing; [exact R|exact Ht|discriminate]).
      rewrite (step_unacted _ _ _ _ N1 eq_refl). exact Ht.
  - intros N0 t k. revert s R N0. induction h as [|[e o] h IH]; intros s R N0 Ht; [reflexivity|].
    apply acted_cons in N0. destruct N0 as [N1 N2]. cbn [run].
    assert (X : metas (fst (step e o s)) !! t = metas s !! t /\ last_id s <= last_id (fst (step e o s))).
    { destruct (decide (required o = Some PUpdateMetadata)) as [Rq|Rq].
      - rewrite (step_unacted _ _ _ _ N1 Rq). split; [reflexivity|lia].
      - apply (step_rel wf (fun a b => t < last_id a -> metas b !! t = metas a !! t /\ last_id a <= last_id b));
          [intros; split; [reflexivity|lia]| | |apply reachable_wf, R|exact Ht].
        + intros a b c H1 H2 Hl. destruct (H1 Hl) as [E1 L1]. destruct (H2 ltac:(lia)) as [E2 L2]. split; [congruence|lia].
        + intros a b W M. split; [eapply wf_micro; eauto|]. intros Hl. split.
          * destruct (micro_metas _ _ _ _ W M) as [->|[(l & -> & _ & Q)|(t' & kvs & -> & _)]]; [reflexivity| |destruct (Rq eq_refl)].
            apply mint_metadata_spec in Q. destruct Q as [Q _]. apply Q. left. exact Hl.
          * clear - M. micro_cases M; lia. }
    destruct X as [X1 X2]. rewrite (IH _ (run_reachable_step e o s R) N2) by lia. unfold meta_of. rewrite X1. reflexivity.
  - intros N0. revert s R N0. induction h as [|[e o] h IH]; intros s R N0 Hp; [auto|].
    apply acted_cons in N0. destruct N0 as [N1 N2]. cbn [run].
    assert (X : upload_part (fst (step e o s)) = upload_part s /\ pend (fst (step e o s)) = ∅).
    { split.
      - destruct (decide (required o = Some PUpdateUploads)) as [Rq|Rq]; [rewrite (step_unacted _ _ _ _ N1 Rq); reflexivity|].
        destruct o; try (apply step_upload_part; [exact Rq|discriminate]).
        cbn [step]. unfold resume. rewrite Hp, lookup_empty. reflexivity.
      - apply map_empty. intros id. destruct (pend (fst (step e o s)) !! id) as [p|] eqn:P; [|reflexivity].
        destruct (step e o s) as [s1 an] eqn:S. cbn [fst] in P.
        destruct (step_pend_origin _ _ _ _ _ _ _ S P) as [H|(H1 & _ & _ & H2)]; [rewrite Hp, lookup_empty in H; discriminate|].
        exfalso. apply N1. split; [|apply holds_iff; exact H2]. destruct p, o; try contradiction H1; reflexivity. }
    destruct X as [X1 X2]. injection X1 as E1 E2 E3.
    destruct (IH _ (run_reachable_step e o s R) N2 X2) as (G1 & G2 & G3 & G4).
    rewrite G1, G2, G3. auto.
Qed.
Print Assumptions C148_nobody_acted.

Lemma acted_iff q h s :
  acted q h s <->
  existsb (fun ev => bool_decide (required (ev_op ev) = Some q) && has_permission (ev_before ev) (e_caller (ev_env ev)) q) (trace h s) = true.
Proof.
  rewrite existsb_exists. unfold acted. split; intros (ev & H1 & H2); exists ev; rewrite <- elem_of_list_In in *;
    (split; [exact H1|]); rewrite andb_true_iff, bool_decide_eq_true, holds_iff in *; exact H2.
Qed.

(** The minter has minted and the uploader uploaded, a token changed hands; nobody with the permission touched the settings,
    the permissions or the metadata, though the minter and the uploader tried. *)
Example C148_example :
  let minter := [21] in
  let uploader := [22] in
  let s := run [(from_ admin 3000000001, OGrant minter PMinting); (from_ admin 3000000002, OGrant uploader PUpdateUploads)] demo2 in
  let g := [(from_ minter 3000000003, OMint [mkMint (acct carol) None []]); (from_ uploader 3000000004, OInitUpload "/x" 10);
            (from_ minter 3000000005, OGrant minter PManageAuthorities); (from_ uploader 3000000006, OUpdateMeta 1 []);
            (from_ minter 3000000007, OReply (next_pend s) (RInitOk [7])); (from_ alice 3000000008, OTransfer [xfer bob 2])] in
  reachable s /\ pend s = ∅ /\
  acted PMinting g s /\ acted PUpdateUploads g s /\
  ~ acted PUpdateCollectionMetadata g s /\ ~ acted PManageAuthorities g s /\ ~ acted PUpdateMetadata g s /\
  last_id (run g s) <> last_id s /\ is_Some (files (run g s) !! "/x"%string) /\ owners (run g s) !! 2 <> owners s !! 2 /\
  pend (run (take 2 g) s) !! next_pend s = Some (PInit uploader "/x" []).
Proof.
  cbv zeta. split; [unfold demo2; rewrite <- run_app; apply demo_reachable|].
  split; [apply map_size_empty_inv; vm_compute; reflexivity|].
  rewrite !acted_iff.
  split; [vm_compute; reflexivity|]. split; [vm_compute; reflexivity|].
  split; [vm_compute; discriminate|]. split; [vm_compute; discriminate|]. split; [vm_compute; discriminate|].
  split; [vm_compute; discriminate|]. split; [vm_compute; eauto|]. split; [vm_compute; discriminate|].
  vm_compute. reflexivity.
Qed.
