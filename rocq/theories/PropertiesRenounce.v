(** C167: what everybody has renounced is closed for ever. *)
From Verif Require Import Base ModelPrincipal ModelState ModelIcrc7 ModelIcrc37 ModelManagement ModelLifecycle
  ModelQueries ModelStep ProofsItems ProofsManage ProofsMicro ProofsCore ProofsLock Spec Scenario.
Local Open Scope N_scope.

(** Nobody has the permission. *)
Definition nobody (s : state) (q : permission) : Prop := forall p, ~ holds s p q.

Lemma nobody_has s p q : nobody s q -> has_permission s p q = true -> False.
Proof.
  intros N H. apply (N p). unfold has_permission in H. unfold holds. destruct (perms s !! p) as [l|]; [|discriminate].
  apply bool_decide_eq_true in H. eauto.
Qed.
Lemma nobody_same s s' q : perms s' = perms s -> nobody s q -> nobody s' q.
Proof. intros E N p. unfold holds. rewrite E. apply N. Qed.

(** What each permission is needed for. *)
Record closed (s s' : state) : Prop := mkClosed {
  cl_perms : perms s' = perms s;
  cl_mint : nobody s PMinting -> last_id s' = last_id s /\ forall t, owner_of s t = None -> owner_of s' t = None;
  cl_metas : nobody s PMinting -> nobody s PUpdateMetadata -> metas s' = metas s;
  cl_cfg : nobody s PUpdateCollectionMetadata -> cfg s' = cfg s;
  cl_files : nobody s PUpdateUploads -> pend s = ∅ -> files s' = files s /\ redirs s' = redirs s /\ subs s' = subs s /\ pend s' = ∅
}.

Lemma closed_refl s : closed s s.
Proof. split; auto. Qed.
Lemma closed_trans s1 s2 s3 : closed s1 s2 -> closed s2 s3 -> closed s1 s3.
Proof.
  intros [A1 A2 A3 A4 A5] [B1 B2 B3 B4 B5]. pose proof (fun q => nobody_same s1 s2 q A1) as N. split.
  - congruence.
  - intros M. destruct (A2 M) as [L O]. destruct (B2 (N _ M)) as [L' O']. split; [congruence|auto].
  - intros M U. rewrite (B3 (N _ M) (N _ U)). auto.
  - intros U. rewrite (B4 (N _ U)). auto.
  - intros U P. destruct (A5 U P) as (F & R & S & P'). destruct (B5 (N _ U) P') as (F' & R' & S' & P''). repeat split; congruence.
Qed.
Lemma closed_frame s s' : perms s' = perms s -> last_id s' = last_id s -> (forall t, owner_of s t = None -> owner_of s' t = None) ->
  metas s' = metas s -> cfg s' = cfg s -> files s' = files s -> redirs s' = redirs s -> subs s' = subs s -> pend s' = pend s -> closed s s'.
Proof. intros. split; auto. intros. repeat split; congruence. Qed.

Lemma owner_put s s' t nft to : tokens s !! t = Some nft -> t_id nft = t -> tokens s' = <[t_id nft := mkTok (t_id nft) to]> (tokens s) ->
  forall t', owner_of s t' = None -> owner_of s' t' = None.
Proof.
  intros T I E t'. unfold owner_of. rewrite E, I. destruct (decide (t' = t)) as [->|D]; [rewrite T; discriminate|].
  rewrite lookup_insert_ne by congruence. auto.
Qed.

Lemma closed_micro e o s s' : wf s -> nobody s PManageAuthorities -> micro e o s s' -> closed s s'.
Proof.
  intros W Na H. destruct H as [o s s' Q|l a nft i s s1 A Q T O An Ne Nc _|l a ow i s s1 A Q T O An _|l a i s s1 A Q An T _
    |l a ow m i s s1 A Q T O M|l a m i s s1 A Q M|l a nft s s1 A Q T|l a nft i s s1 A Q T Ne An O V|u s G P|l m ix n s G P X L
    |l m ix n s G P C S X L|t kvs tok m n s G P T R|t kvs tok m n i s G P T R|t tok n i s G T O|q r s G P|q r s G P
    |o key u s K G P _ _ _|o p s K G P _|id r p s E|s].
  - destruct Q as (w & n & ->). apply closed_frame; auto.
  - destruct Q as (w & n & ->). apply closed_frame; try reflexivity. eapply owner_put; [exact T|exact (wf_id _ W _ _ T)|reflexivity].
  - destruct Q as (w & n & ->). apply closed_frame; auto.
  - destruct Q as (w & n & ->). apply closed_frame; auto.
  - destruct Q as (w & n & ->). apply closed_frame; auto.
  - destruct Q as (w & n & ->). apply closed_frame; auto.
  - destruct Q as (w & n & ->). apply closed_frame; auto.
  - destruct Q as (w & n & ->). apply closed_frame; try reflexivity. eapply owner_put; [exact T|exact (wf_id _ W _ _ T)|reflexivity].
  - split; try (intros; cbn; auto; fail). intros N. destruct (nobody_has _ _ _ N P).
  - split; try (intros; cbn; auto; fail). intros N. destruct (nobody_has _ _ _ N P).
  - split; try (intros; cbn; auto; fail); intros N; destruct (nobody_has _ _ _ N P).
  - split; try (intros; cbn; auto; fail). intros _ N. destruct (nobody_has _ _ _ N P).
  - split; try (intros; cbn; auto; fail). intros _ N. destruct (nobody_has _ _ _ N P).
  - apply closed_frame; try reflexivity. intros t'. unfold owner_of. cbn. destruct (decide (t' = t)) as [->|D];
      [rewrite lookup_delete; auto|rewrite lookup_delete_ne by congruence; auto].
  - destruct (nobody_has _ _ _ Na P).
  - destruct (nobody_has _ _ _ Na P).
  - split; try (intros; cbn; auto; fail). intros N. destruct (nobody_has _ _ _ N P).
  - split; try (intros; cbn; auto; fail). intros N. destruct (nobody_has _ _ _ N P).
  - assert (Z : perms (fst (continue (e_now e) p r s)) = perms s /\ last_id (fst (continue (e_now e) p r s)) = last_id s /\
      tokens (fst (continue (e_now e) p r s)) = tokens s /\ metas (fst (continue (e_now e) p r s)) = metas s /\
      cfg (fst (continue (e_now e) p r s)) = cfg s) by (destruct p, r; cbn; auto).
    destruct Z as (Z1 & Z2 & Z3 & Z4 & Z5).
    split; cbn; auto.
    + intros _. split; [exact Z2|]. intros t. unfold owner_of. cbn. rewrite Z3. auto.
    + intros _ Pe. rewrite Pe, lookup_empty in E. discriminate.
  - split; try (intros; cbn; auto; fail). 
Qed.

Lemma closed_step e o s : wf s -> nobody s PManageAuthorities -> closed s (fst (step e o s)).
Proof.
  intros W N. pose proof (step_micros e o s) as M. revert W N.
  induction M as [s|s s1 s' X M IH]; intros W N; [apply closed_refl|].
  pose proof (closed_micro _ _ _ _ W N X) as C. eapply closed_trans; [exact C|]. apply IH; [eapply wf_micro; eauto|].
  eapply nobody_same; [apply (cl_perms _ _ C)|exact N].
Qed.
Lemma closed_run h s : wf s -> nobody s PManageAuthorities -> closed s (run h s).
Proof.
  revert s. induction h as [|[e o] h IH]; intros s W N; [apply closed_refl|]. pose proof (closed_step e o s W N) as C.
  eapply closed_trans; [exact C|]. apply (IH (fst (step e o s))); [apply step_wf, W|].
  eapply nobody_same; [apply (cl_perms _ _ C)|exact N].
Qed.

(** ** The claim *)

(** Nobody gets or loses a permission any more. *)
Theorem C167_permissions h s p q : reachable s -> nobody s PManageAuthorities -> holds (run h s) p q <-> holds s p q.
Proof. intros Re Na. unfold holds. rewrite (cl_perms _ _ (closed_run h s (reachable_wf _ Re) Na)). reflexivity. Qed.

(** No further token is ever made, if nobody can mint. *)
Theorem C167_supply h s : reachable s -> nobody s PManageAuthorities -> nobody s PMinting ->
  last_id (run h s) = last_id s /\ (forall t, owner_of s t = None -> owner_of (run h s) t = None) /\
  (size (tokens (run h s)) <= size (tokens s))%nat.
Proof.
  intros Re Na N. destruct (cl_mint _ _ (closed_run h s (reachable_wf _ Re) Na) N) as [L O]. split; [exact L|]. split; [exact O|].
  rewrite <- !size_dom. apply subseteq_size. intros t D. apply elem_of_dom in D as [x D]. apply elem_of_dom.
  specialize (O t). unfold owner_of in O. destruct (tokens s !! t); [eauto|]. rewrite D in O. discriminate O. reflexivity.
Qed.

(** The metadata of all tokens stay, if nobody can mint or update them. *)
Theorem C167_metadata h s : reachable s -> nobody s PManageAuthorities -> nobody s PMinting -> nobody s PUpdateMetadata -> metas (run h s) = metas s.
Proof. intros Re Na. apply (cl_metas _ _ (closed_run h s (reachable_wf _ Re) Na)). Qed.

(** The settings of the collection stay. *)
Theorem C167_settings h s : reachable s -> nobody s PManageAuthorities -> nobody s PUpdateCollectionMetadata -> cfg (run h s) = cfg s.
Proof. intros Re Na. apply (cl_cfg _ _ (closed_run h s (reachable_wf _ Re) Na)). Qed.

(** The uploaded files and where they are found stay, once no upload call is under way. *)
Theorem C167_uploads h s : reachable s -> nobody s PManageAuthorities -> nobody s PUpdateUploads -> pend s = ∅ ->
  files (run h s) = files s /\ redirs (run h s) = redirs s /\ subs (run h s) = subs s.
Proof. intros Re Na N P. destruct (cl_files _ _ (closed_run h s (reachable_wf _ Re) Na) N P) as (A & B & C & _). auto. Qed.

(** ** Examples *)

(** The administrator gives up every permission; nobody can mint, update or grant any more, alice can still transfer and burn. *)
Definition renounce_h : history := map (fun q => (from_ admin 3000000000, ORevokePerm admin q))
  [PMinting; PUpdateMetadata; PUpdateCollectionMetadata; PUpdateUploads; PReadUploads; PManageAuthorities].
Example C167_example :
  let s := run (demo2_h ++ renounce_h) demo0 in
  reachable s /\ Forall (nobody s) [PManageAuthorities; PMinting; PUpdateMetadata; PUpdateCollectionMetadata; PUpdateUploads] /\
  pend s = ∅ /\
  snd (step (from_ admin 4000000000) (OGrant admin PMinting) s) = AReject "Caller does not have manage authorities permission" /\
  snd (step (from_ admin 4000000000) mint3 s) = AReject "Caller does not have minting permission" /\
  snd (step (from_ alice 4000000000) (OTransfer [xfer carol 1]) s) = ABatch [Ok 5] /\
  snd (step (from_ alice 4000000000) (OBurn 2) s) = AOk.
Proof.
  intros s. split; [exact (demo_reachable (demo2_h ++ renounce_h))|].
  assert (E : map_to_list (perms s) = [(admin, [])]) by (vm_compute; reflexivity).
  split.
  { repeat constructor; intros p (l & L & I); apply elem_of_map_to_list in L; rewrite E in L; apply elem_of_list_singleton in L; injection L as _ ->; apply elem_of_nil in I; exact I. }
  split; [|split; [|split; [|split]]]; vm_compute; reflexivity.
Qed.

Print Assumptions C167_permissions.
Print Assumptions C167_supply.
Print Assumptions C167_metadata.
Print Assumptions C167_settings.
Print Assumptions C167_uploads.
