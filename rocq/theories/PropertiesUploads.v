(** C47-C51, C69: uploads, redirections, storage canisters, garbage collection. *)
From Verif Require Import Base ModelPrincipal ModelState ModelIcrc7 ModelIcrc37 ModelManagement ModelLifecycle
  ModelQueries ModelStep ModelStorage ProofsItems ProofsManage ProofsMicro Spec ProofsCore ProofsLock ProofsUploads Scenario.

(** A whole upload of a file by admin, answered by storage canister [c]; [id] is the number of its first waiting call. *)
Definition upload_h (path : string) (c : principal) (id : N) : history :=
  [(from_ admin 1, OInitUpload path 10); (from_ admin 2, OReply id (RInitOk c));
   (from_ admin 3, OStoreChunk path); (from_ admin 4, OReply (id + 1) ROk);
   (from_ admin 5, OFinalize path); (from_ admin 6, OReply (id + 2) ROk)].

(** ** C47 *)
Theorem C47_life_cycle h s0 ev k :
  reachable s0 -> ev ∈ trace h s0 ->
  let b := files (ev_before ev) !! k in
  let a := files (ev_after ev) !! k in
  a = b \/
  (exists id r p, ev_op ev = OReply id r /\ pend (ev_before ev) !! id = Some p /\ ev_ans ev = AOk /\
    ((b = None /\ (exists z, waits_for p (OInitUpload k z)) /\
        exists c, r = RInitOk c /\ a = Some (mkUp (e_now (ev_env ev)) UInit c k)) \/
     (r = ROk /\ exists u, b = Some u /\
        ((waits_for p (OStoreChunk k) /\ u_state u <> UFinalized /\ a = Some (mkUp (u_init u) UInProgress (u_canister u) k)) \/
         (waits_for p (OFinalize k) /\ u_state u = UInProgress /\ a = Some (mkUp (u_init u) UFinalized (u_canister u) k)) \/
         (waits_for p (OCancel k) /\ u_state u <> UFinalized /\ a = None))))).
Proof.
  intros Hr Hev. apply trace_step in Hev. destruct Hev as (S & h1 & h2 & _ & B).
  assert (U : up_inv (ev_before ev)) by (rewrite B; apply run_up_inv, reachable_up_inv, Hr). clear B Hr.
  destruct ev as [s e o an s']; simpl in *.
  assert (D : (exists id r, o = OReply id r) \/ (forall id r, o <> OReply id r)) by (destruct o; eauto; right; discriminate).
  destruct D as [(id & r & ->)|D].
  2: { left. pose proof (step_files e o s U D) as (F & _). rewrite S in F. simpl in F. rewrite F. reflexivity. }
  simpl in S. unfold resume in S. destruct (pend s !! id) as [p|] eqn:Hp; [|injection S as <- <-; left; reflexivity].
  pose proof (up_pend s U _ _ Hp) as OK.
  destruct p as [c path snap|c key i cn path|c key i cn path|c key], r as [cc|cr er| |er|];
    simpl in S; injection S as <- <-; simpl; try (left; reflexivity).
  - destruct OK as [OK _]. destruct (decide (path = k)) as [->|Hne]; [|left; apply lookup_insert_ne; exact Hne].
    right. exists id, (RInitOk cc), (PInit c k snap). repeat (split; [reflexivity || assumption|]). left.
    split; [assumption|]. split; [exists 0; reflexivity|]. exists cc. rewrite lookup_insert. auto.
  - destruct OK as (u & F & N0 & -> & -> & ->). rewrite (up_path s U _ _ F).
    destruct (decide (key = k)) as [->|Hne]; [|left; apply lookup_insert_ne; exact Hne].
    right. do 3 eexists. repeat (split; [reflexivity || eassumption|]). right. split; [reflexivity|].
    exists u. split; [exact F|]. left. rewrite lookup_insert. simpl. auto.
  - destruct OK as (u & F & N0 & -> & -> & ->). rewrite (up_path s U _ _ F).
    destruct (decide (key = k)) as [->|Hne]; [|left; apply lookup_insert_ne; exact Hne].
    right. do 3 eexists. repeat (split; [reflexivity || eassumption|]). right. split; [reflexivity|].
    exists u. split; [exact F|]. right. left. rewrite lookup_insert. simpl. auto.
  - destruct OK as (u & F & N0).
    destruct (decide (key = k)) as [->|Hne]; [|left; apply lookup_delete_ne; exact Hne].
    right. do 3 eexists. repeat (split; [reflexivity || eassumption|]). right. split; [reflexivity|].
    exists u. split; [exact F|]. right. right. rewrite lookup_delete. simpl. auto.
Qed.
Print Assumptions C47_life_cycle.

(** The waiting call was made by someone entitled, and is the one the continuation acts for. *)
Theorem C47_call_behind caller url_ok a s0 h id p :
  init caller url_ok a = Some s0 -> pend (run h s0) !! id = Some p ->
  exists ev, ev ∈ trace h s0 /\ ev_ans ev = APending /\ waits_for p (ev_op ev) /\
    holds (ev_before ev) (e_caller (ev_env ev)) PUpdateUploads.
Proof.
  intros Hi.
  assert (E : pend s0 = ∅) by (apply init_inv in Hi; destruct Hi as (_ & _ & _ & _ & ->); reflexivity).
  assert (G : forall h s, pend (run h s) !! id = Some p -> pend s !! id = Some p \/
     exists ev, ev ∈ trace h s /\ ev_ans ev = APending /\ waits_for p (ev_op ev) /\
       holds (ev_before ev) (e_caller (ev_env ev)) PUpdateUploads).
  { clear. induction h as [|[e o] h IH]; intros s H; simpl in *; [auto|]. apply IH in H.
    destruct (step e o s) as [s1 an] eqn:S. simpl in *. destruct H as [H|(ev & H1 & H2)].
    - destruct (step_pend_origin _ _ _ _ _ _ _ S H) as [H1|(H1 & _ & -> & H2)]; [auto|].
      right. eexists. split; [left|]. simpl. split; [reflexivity|]. split; [exact H1|apply holds_iff; exact H2].
    - right. exists ev. split; [right; exact H1|exact H2]. }
  intros H. apply G in H. destruct H as [H|H]; [rewrite E, lookup_empty in H; discriminate|exact H].
Qed.
Print Assumptions C47_call_behind.

(** No upload is ever forgotten because its storage canister is unknown. *)
Theorem C47_canister_known s k u :
  reachable s -> files s !! k = Some u -> u_canister u ∈ subs s /\ u_path u = k.
Proof. intros Hr F. pose proof (reachable_up_inv s Hr) as U. split; [eapply up_subs|eapply up_path]; eauto. Qed.
Print Assumptions C47_canister_known.

Example C47_example :
  map (fun n => status (run (take n (upload_h "/a" [7] 0)) demo0) "/a") [1; 2; 3; 4; 5; 6]%nat =
    [None; Some UInit; Some UInit; Some UInProgress; Some UInProgress; Some UFinalized] /\
  map ev_ans (trace (upload_h "/a" [7] 0) demo0) = [APending; AOk; APending; AOk; APending; AOk] /\
  pend (run (take 5 (upload_h "/a" [7] 0)) demo0) !! 2 = Some (PFinalize admin "/a" (t0 + 2) [7] "/a").
Proof. splits; vm_compute; reflexivity. Qed.

(** ** C48 *)
Theorem C48_finalized_record h s k u :
  reachable s -> files s !! k = Some u -> u_state u = UFinalized -> files (run h s) !! k = Some u.
Proof.
  intros Hr. apply reachable_up_inv in Hr. revert s Hr. induction h as [|[e o] h IH]; intros s U F Fin; simpl; [exact F|].
  apply IH; [apply (step_inv up_inv); [intros; eapply up_inv_micro; eauto|exact U]| |exact Fin].
  assert (D : (exists id r, o = OReply id r) \/ (forall id r, o <> OReply id r)) by (destruct o; eauto; right; discriminate).
  destruct D as [(id & r & ->)|D]; [|pose proof (step_files e o s U D) as (-> & _); exact F].
  simpl. unfold resume. destruct (pend s !! id) as [p|] eqn:Hp; [|exact F]. pose proof (up_pend s U _ _ Hp) as OK.
  destruct p as [c path snap|c key i cn path|c key i cn path|c key], r as [cc|cr er| |er|]; simpl; try exact F.
  - destruct OK as [OK _]. rewrite lookup_insert_ne; [exact F|]. intros ->. congruence.
  - destruct OK as (u0 & F0 & N0 & _). rewrite lookup_insert_ne; [exact F|]. intros ->. congruence.
  - destruct OK as (u0 & F0 & N0 & _). rewrite lookup_insert_ne; [exact F|]. intros ->. congruence.
  - destruct OK as (u0 & F0 & N0). rewrite lookup_delete_ne; [exact F|]. intros ->. congruence.
Qed.
Print Assumptions C48_finalized_record.

(** Later calls on the path fail and change nothing. *)
Theorem C48_later_calls s k u e :
  reachable s -> files s !! k = Some u -> u_state u = UFinalized ->
  (forall z, exists msg, step e (OInitUpload k z) s = (s, AReject msg) \/
     step e (OInitUpload k z) s = (s, AErr EConcurrentManagementCall) \/ step e (OInitUpload k z) s = (s, AErr EFileAlreadyExists)) /\
  (forall o, o = OStoreChunk k \/ o = OFinalize k \/ o = OCancel k -> exists msg, step e o s = (s, AReject msg) \/
     step e o s = (s, AErr EConcurrentManagementCall) \/ step e o s = (s, AErr EUploadAlreadyFinalized)).
Proof.
  intros Hr F Fin. pose proof (reachable_up_inv s Hr) as U.
  assert (Dr : guards s = ∅ -> guard_drop (e_caller e) (set_guards {[e_caller e]} s) = s).
  { intros G. unfold guard_drop. simpl. replace ({[e_caller e]} ∖ {[e_caller e]}) with (guards s) by (rewrite G; set_solver).
    destruct s; reflexivity. }
  split.
  - intros z. exists "Caller does not have update uploads permission"%string. simpl.
    unfold init_upload, upload_entry. destruct (has_permission _ _ _); [|auto].
    rewrite guard_new_spec. destruct (decide (guards s = ∅)) as [G|G]; [|auto]. unfold init_upload_first.
    assert (C : contains_path (set_guards {[e_caller e]} s) k = true).
    { rewrite contains_path_true by (simpl; apply (up_path s U)). apply bool_decide_eq_true. simpl. eauto. }
    rewrite C. simpl. rewrite (Dr G). auto.
  - intros o [->|[->| ->]]; exists "Caller does not have update uploads permission"%string; simpl;
      unfold store_chunk, finalize_upload, cancel_upload, upload_entry; (destruct (has_permission _ _ _); [|auto]);
      rewrite guard_new_spec; (destruct (decide (guards s = ∅)) as [G|G]; [|auto]);
      unfold store_chunk_first, finalize_upload_first, cancel_upload_first; simpl; rewrite F, Fin; simpl; rewrite (Dr G); auto.
Qed.
Print Assumptions C48_later_calls.

(** The redirection keeps pointing to the upload, if no other finalized upload has the same normalised path.
    Missing: paths that differ only in the leading slash. *)
Theorem C48_redirection_partial h s k u :
  reachable s -> files s !! k = Some u -> u_state u = UFinalized ->
  (forall k' u', files (run h s) !! k' = Some u' -> u_state u' = UFinalized -> norm_path k' = norm_path k -> k' = k) ->
  redirs (run h s) !! norm_path k = Some (redirection_url (u_canister u) (norm_path k)).
Proof.
  intros Hr F Fin Un. pose proof (C48_finalized_record h s k u Hr F Fin) as F'.
  pose proof (run_up_inv h s (reachable_up_inv s Hr)) as U.
  destruct (up_final _ U _ _ F' Fin) as [url R]. destruct (up_redir _ U _ _ R) as (k' & u' & K1 & K2 & K3 & ->).
  pose proof (Un _ _ K1 K2 K3) as ->. rewrite K1 in F'. injection F' as ->. exact R.
Qed.
Print Assumptions C48_redirection_partial.

(** Refuted: finalizing "a" takes over the redirection of "/a". *)
Theorem C48_redirection_refuted :
  exists s h k u, reachable s /\ files s !! k = Some u /\ u_state u = UFinalized /\
    redirs s !! norm_path k = Some (redirection_url (u_canister u) (norm_path k)) /\
    files (run h s) !! k = Some u /\
    redirs (run h s) !! norm_path k <> Some (redirection_url (u_canister u) (norm_path k)).
Proof.
  exists (run (upload_h "/a" [7] 0) demo0), (upload_h "a" [8] 3), "/a"%string, (mkUp (t0 + 2) UFinalized [7] "/a").
  split; [apply demo_reachable|]. splits; try (vm_compute; reflexivity). vm_compute. discriminate.
Qed.
Print Assumptions C48_redirection_refuted.

Example C48_example :
  let s := run (upload_h "/a" [7] 0) demo0 in
  files s !! "/a"%string = Some (mkUp (t0 + 2) UFinalized [7] "/a") /\
  snd (step (from_ admin 9) (OInitUpload "/a" 5) s) = AErr EFileAlreadyExists /\
  snd (step (from_ admin 9) (OCancel "/a") s) = AErr EUploadAlreadyFinalized /\
  redirs (run (upload_h "/b" [8] 3) s) !! "/a"%string = Some "https://jrthu-lqh.raw.icp0.io/a"%string.
Proof. splits; vm_compute; reflexivity. Qed.

(** ** C49 *)
Theorem C49_redirections_exact s p :
  reachable s ->
  (is_Some (redirs s !! p) <-> exists k u, files s !! k = Some u /\ u_state u = UFinalized /\ norm_path k = p) /\
  (forall url, redirs s !! p = Some url ->
     exists k u, files s !! k = Some u /\ u_state u = UFinalized /\ norm_path k = p /\
       url = ("https://" ++ principal_text (u_canister u) ++ ".raw.icp0.io" ++ p)%string).
Proof.
  intros Hr. pose proof (reachable_up_inv s Hr) as U. split; [split|].
  - intros [url R]. destruct (up_redir _ U _ _ R) as (k & u & K1 & K2 & K3 & _). eauto.
  - intros (k & u & K1 & K2 & <-). eapply up_final; eauto.
  - intros url R. apply (up_redir _ U _ _ R).
Qed.
Print Assumptions C49_redirections_exact.

(** Normalised paths start with a slash, and two paths normalise to the same only if they differ by that slash. *)
Theorem C49_norm_path a b :
  (exists r, norm_path a = String (Ascii.ascii_of_N 47) r) /\
  (norm_path a = norm_path b -> a = b \/ a = String (Ascii.ascii_of_N 47) b \/ b = String (Ascii.ascii_of_N 47) a).
Proof.
  assert (N0 : forall c x, Ascii.eqb c (Ascii.ascii_of_N 47) = true -> String c x = String (Ascii.ascii_of_N 47) x).
  { intros c x E. apply Ascii.eqb_eq in E. subst. reflexivity. }
  unfold norm_path. split.
  - destruct a as [|c x]; [eauto|]. destruct (Ascii.eqb _ _) eqn:E; [rewrite N0 by exact E; eauto|simpl; eauto].
  - destruct a as [|c x], b as [|d y]; simpl; auto.
    + destruct (Ascii.eqb d _) eqn:E; intros H; [right; right; symmetry; exact H|discriminate].
    + destruct (Ascii.eqb c _) eqn:E; intros H; [right; left; exact H|discriminate].
    + destruct (Ascii.eqb c _) eqn:E, (Ascii.eqb d _) eqn:E'; intros H.
      * left. exact H.
      * right. left. exact H.
      * right. right. symmetry. exact H.
      * injection H as H1 H2. left. congruence.
Qed.
Print Assumptions C49_norm_path.

Example C49_example :
  let s := run (upload_h "a" [8] 0) demo0 in
  redirs s !! "/a"%string = Some "https://3tmwp-pyi.raw.icp0.io/a"%string /\
  redirs s !! "a"%string = None /\ redirs (run (take 5 (upload_h "a" [8] 0)) demo0) !! "/a"%string = None /\
  norm_path "" = "/"%string.
Proof. splits; vm_compute; reflexivity. Qed.

(** ** C50 *)

(** When a canister is fit for the file: it answers its size, which leaves room, and takes the upload. *)
Definition fits (w : world) (size : N) (c : principal) : Prop :=
  (exists n, w_size w c = Some n /\ n + size <= 500 * 1024 ^ 3) /\ w_accept w c = None.

Lemma try_installed_spec w size l :
  (forall c n, w_size w c = Some n -> n + size < 2 ^ 128) ->
  match try_installed w size l with
  | Some c => exists l1 l2, l = l1 ++ c :: l2 /\ fits w size c /\ forall x, x ∈ l1 -> ~ fits w size x
  | None => forall x, x ∈ l -> ~ fits w size x
  end.
Proof.
  intros Hw. induction l as [|c l IH]; simpl; [intros x H; apply elem_of_nil in H; destruct H|].
  assert (Next : ~ fits w size c ->
    match try_installed w size l with
    | Some c0 => exists l1 l2, c :: l = l1 ++ c0 :: l2 /\ fits w size c0 /\ forall x, x ∈ l1 -> ~ fits w size x
    | None => forall x, x ∈ c :: l -> ~ fits w size x
    end).
  { intros NF. destruct (try_installed w size l) as [c0|].
    - destruct IH as (l1 & l2 & -> & F & A). exists (c :: l1), l2. split; [reflexivity|]. split; [exact F|].
      intros x H. apply elem_of_cons in H. destruct H as [->|H]; auto.
    - intros x H. apply elem_of_cons in H. destruct H as [->|H]; auto. }
  destruct (w_size w c) as [n|] eqn:Sz.
  - pose proof (Hw _ _ Sz) as Hn. unfold add128.
    change 340282366920938463463374607431768211456 with (2 ^ 128). rewrite N.mod_small by exact Hn.
    destruct (n + size <=? max_storage_size) eqn:L.
    + destruct (w_accept w c) as [er|] eqn:A.
      * apply Next. intros [_ X]. congruence.
      * exists [], l. split; [reflexivity|]. split; [|intros x H; apply elem_of_nil in H; destruct H].
        split; [|exact A]. exists n. split; [exact Sz|]. apply N.leb_le in L. exact L.
    + apply Next. intros [(n' & X & Y) _]. apply N.leb_gt in L. unfold max_storage_size in L.
      rewrite Sz in X. injection X as <-. change (500 * 1024 ^ 3) with 536870912000 in Y. lia.
  - apply Next. intros [(n' & X & _) _]. congruence.
Qed.

(** [2^128] only excludes replies no canister can give (its memory is smaller). *)
Theorem C50_selection w installed size :
  (forall c n, w_size w c = Some n -> n + size < 2 ^ 128) ->
  match manager_init_upload w installed size with
  | RInitOk c =>
      size <= 2 * 1024 ^ 3 /\
      ((exists l1 l2, installed = l1 ++ c :: l2 /\ fits w size c /\ forall x, x ∈ l1 -> ~ fits w size x) \/
       (w_create w = inl c /\ w_accept w c = None /\ forall x, x ∈ installed -> ~ fits w size x))
  | RInitErr None _ => 2 * 1024 ^ 3 < size \/ ((forall x, x ∈ installed -> ~ fits w size x) /\ exists e, w_create w = inr e)
  | RInitErr (Some c) _ =>
      size <= 2 * 1024 ^ 3 /\ (forall x, x ∈ installed -> ~ fits w size x) /\ w_create w = inl c /\ w_accept w c <> None
  | _ => False
  end.
Proof.
  intros Hw. unfold manager_init_upload. change max_file_size with (2 * 1024 ^ 3).
  destruct (_ <? size) eqn:L; [apply N.ltb_lt in L; auto|]. apply N.ltb_ge in L.
  pose proof (try_installed_spec w size installed Hw) as T. destruct (try_installed w size installed) as [c|]; [auto|].
  destruct (w_create w) as [c|er]; [|right; eauto]. destruct (w_accept w c) eqn:A; [|auto].
  splits; auto. congruence.
Qed.
Print Assumptions C50_selection.

(** The call itself: too large a file is refused at once, nothing changes; whoever is not refused for another reason is told. *)
Theorem C50_too_large e path size s :
  reachable s -> 2 * 1024 ^ 3 < size ->
  exists an, step e (OInitUpload path size) s = (s, an) /\
    ((exists m, an = AReject m) \/ an = AErr EConcurrentManagementCall \/ an = AErr EFileAlreadyExists \/
     an = AErr (EStorageCanisterError "File size exceeds the maximum limit of 2GB")).
Proof.
  intros Hr L. simpl. unfold init_upload, upload_entry. destruct (has_permission _ _ _); [|eexists; split; [reflexivity|eauto]].
  rewrite guard_new_spec. destruct (decide (guards s = ∅)) as [G|G]; [|eexists; split; [reflexivity|auto]].
  assert (Dr : guard_drop (e_caller e) (set_guards {[e_caller e]} s) = s).
  { unfold guard_drop. simpl. replace ({[e_caller e]} ∖ {[e_caller e]}) with (guards s) by (rewrite G; set_solver).
    destruct s; reflexivity. }
  unfold init_upload_first. destruct (contains_path _ _); [simpl; rewrite Dr; eexists; split; [reflexivity|auto]|].
  change (2 * 1024 ^ 3) with max_file_size in L. apply N.ltb_lt in L. rewrite L. simpl. rewrite Dr.
  eexists; split; [reflexivity|auto].
Qed.
Print Assumptions C50_too_large.
Theorem C50_manager_too_large w installed size :
  2 * 1024 ^ 3 < size ->
  manager_init_upload w installed size = RInitErr None (EStorageCanisterError "File size exceeds the maximum limit of 2GB").
Proof. intros L. unfold manager_init_upload. change (2 * 1024 ^ 3) with max_file_size in L. apply N.ltb_lt in L. rewrite L. reflexivity. Qed.
Print Assumptions C50_manager_too_large.

Definition demo_world : world :=
  mkWorld (fun c => if bool_decide (c = [7]) then Some 536870911999 else if bool_decide (c = [8]) then Some 5 else None)
          (fun c => if bool_decide (c = [9]) then Some "full"%string else None) (inl [10]).
Example C50_example :
  manager_init_upload demo_world [[7]; [6]; [8]] 10 = RInitOk [8] /\ fits demo_world 10 [8] /\ ~ fits demo_world 10 [7] /\
  manager_init_upload demo_world [[7]; [6]] 10 = RInitOk [10] /\
  manager_init_upload demo_world [[8]] (2 * 1024 ^ 3 + 1) = RInitErr None (EStorageCanisterError "File size exceeds the maximum limit of 2GB") /\
  snd (step (from_ admin 1) (OInitUpload "/a" (2 * 1024 ^ 3 + 1)) demo0) =
    AErr (EStorageCanisterError "File size exceeds the maximum limit of 2GB").
Proof.
  split; [vm_compute; reflexivity|].
  split; [split; [|reflexivity]; exists 5; split; [reflexivity|]; apply N.leb_le; vm_compute; reflexivity|].
  split; [intros [(n & X & Y) _]; assert (E : n = 536870911999) by (vm_compute in X; congruence); subst n;
          apply N.leb_le in Y; revert Y; vm_compute; discriminate|].
  splits; vm_compute; reflexivity.
Qed.

(** ** C69 *)

(** Refuted: a canister created (and paid for) during a call that fails is not in the list. *)
Theorem C69_created_canister_refuted :
  exists s id w installed c er, reachable s /\ is_Some (pend s !! id) /\
    manager_init_upload w installed 10 = RInitErr (Some c) er /\ w_create w = inl c /\
    forall e, let s' := fst (step e (OReply id (RInitErr (Some c) er)) s) in
      snd (step e (OReply id (RInitErr (Some c) er)) s) = AErr er /\ c ∉ subs s'.
Proof.
  exists (run (take 1 (upload_h "/a" [7] 0)) demo0), 0,
    (mkWorld (fun _ => None) (fun _ => Some "out of cycles"%string) (inl [11])), [], [11], (EStorageCanisterError "out of cycles").
  split; [apply demo_reachable|]. split; [exists (PInit admin "/a" []); vm_compute; reflexivity|].
  split; [reflexivity|]. split; [reflexivity|]. intros e.
  split; [vm_compute; reflexivity|].
  assert (E : forall s, subs s = [] -> pend s !! 0 = Some (PInit admin "/a" []) ->
    subs (fst (step e (OReply 0 (RInitErr (Some [11]) (EStorageCanisterError "out of cycles"))) s)) = []).
  { intros s E1 E2. simpl. unfold resume. rewrite E2. exact E1. }
  rewrite E by (vm_compute; reflexivity). apply not_elem_of_nil.
Qed.
Print Assumptions C69_created_canister_refuted.

(** A successful call remembers the canister, and no known canister is ever lost.  Missing: failing calls. *)
Theorem C69_canisters_kept_partial h s :
  reachable s ->
  (forall c, c ∈ subs s -> c ∈ subs (run h s)) /\
  (forall e id c p, pend s !! id = Some p -> snd (step e (OReply id (RInitOk c)) s) = AOk ->
     c ∈ subs (fst (step e (OReply id (RInitOk c)) s))).
Proof.
  intros Hr. apply reachable_up_inv in Hr. split.
  - revert s Hr. induction h as [|[e o] h IH]; intros s U c Hc; simpl; [exact Hc|].
    apply IH; [apply (step_inv up_inv); [intros; eapply up_inv_micro; eauto|exact U]|].
    assert (D : (exists id r, o = OReply id r) \/ (forall id r, o <> OReply id r)) by (destruct o; eauto; right; discriminate).
    destruct D as [(id & r & ->)|D]; [|pose proof (step_files e o s U D) as (_ & _ & ->); exact Hc].
    simpl. unfold resume. destruct (pend s !! id) as [p|] eqn:Hp; [|exact Hc]. pose proof (up_pend s U _ _ Hp) as OK.
    destruct p as [c0 path snap|c0 key i cn path|c0 key i cn path|c0 key], r as [cc|cr er| |er|]; simpl; try exact Hc.
    destruct OK as [_ ->]. case_bool_decide; [exact Hc|apply elem_of_app; auto].
  - intros e id c p Hp. simpl. unfold resume. rewrite Hp. destruct p as [c0 path snap| | |]; simpl; try discriminate.
    intros _. case_bool_decide; [assumption|apply elem_of_app; right; left].
Qed.
Print Assumptions C69_canisters_kept_partial.

Example C69_example :
  subs (run (upload_h "/a" [7] 0) demo0) = [[7]] /\ subs (run (upload_h "/b" [8] 3) (run (upload_h "/a" [7] 0) demo0)) = [[7]; [8]].
Proof. splits; vm_compute; reflexivity. Qed.

(** ** C51 *)

(** What the job really selects. *)
Theorem C51_gc_exact now s k :
  k ∈ gc_selected now s <-> exists u, files s !! k = Some u /\ now < (u_init u + 86400000) mod 2 ^ 64.
Proof.
  unfold gc_selected. rewrite elem_of_list_fmap. split.
  - intros ([k' u] & -> & H). apply elem_of_list_filter in H. destruct H as [H1 H2]. apply elem_of_map_to_list in H2.
    exists u. split; [exact H2|exact H1].
  - intros (u & F & L). exists (k, u). split; [reflexivity|]. apply elem_of_list_filter. split; [exact L|].
    apply elem_of_map_to_list. exact F.
Qed.
Print Assumptions C51_gc_exact.

(** Refuted twice: a fresh and even finalized upload is selected, a stale unfinished one is not. *)
Theorem C51_gc_refuted :
  (exists s now k u, reachable s /\ files s !! k = Some u /\ u_state u = UFinalized /\ now - u_init u < 10 /\ k ∈ gc_selected now s) /\
  (exists s now k u, reachable s /\ files s !! k = Some u /\ u_state u = UInit /\ now - u_init u > 2 * 86400 * 10 ^ 9 /\
     k ∉ gc_selected now s).
Proof.
  split.
  - exists (run (upload_h "/a" [7] 0) demo0), (t0 + 7), "/a"%string, (mkUp (t0 + 2) UFinalized [7] "/a").
    split; [apply demo_reachable|]. split; [vm_compute; reflexivity|]. split; [reflexivity|]. split; [vm_compute; reflexivity|].
    apply C51_gc_exact. eexists. split; [vm_compute; reflexivity|]. vm_compute. reflexivity.
  - exists (run (take 2 (upload_h "/a" [7] 0)) demo0), (t0 + 3 * 86400 * 10 ^ 9), "/a"%string, (mkUp (t0 + 2) UInit [7] "/a").
    split; [apply demo_reachable|]. split; [vm_compute; reflexivity|]. split; [reflexivity|]. split; [vm_compute; reflexivity|].
    intros H. apply C51_gc_exact in H. destruct H as (u & F & L).
    assert (E : files (run (take 2 (upload_h "/a" [7] 0)) demo0) !! "/a"%string = Some (mkUp (t0 + 2) UInit [7] "/a"))
      by (vm_compute; reflexivity).
    rewrite E in F. injection F as <-. revert L. vm_compute. discriminate.
Qed.
Print Assumptions C51_gc_refuted.

(** No upload older than a tenth of a second is ever selected (u64 nanoseconds): the job never does its work. *)
Theorem C51_gc_idle_partial now s k u :
  files s !! k = Some u -> u_init u + 86400000 < 2 ^ 64 -> u_init u + 10 ^ 8 <= now -> k ∉ gc_selected now s.
Proof.
  intros F B L H. apply C51_gc_exact in H. destruct H as (u' & F' & L'). rewrite F in F'. injection F' as <-.
  rewrite N.mod_small in L' by exact B. change (10 ^ 8) with 100000000 in L. lia.
Qed.
Print Assumptions C51_gc_idle_partial.

Example C51_example :
  gc_selected (t0 + 7) (run (upload_h "/a" [7] 0) demo0) = ["/a"%string] /\
  gc_selected (t0 + 10 ^ 9) (run (upload_h "/a" [7] 0) demo0) = [].
Proof. splits; vm_compute; reflexivity. Qed.

(** ** C92, upload calls *)

(** Reasons of the upload calls, in terms of the state the call found: another management call is in progress, or what the
    error says about the upload is so. *)
Definition upload_reason (s : state) (o : op) (er : err) : Prop :=
  (er = EConcurrentManagementCall /\ guards s <> ∅) \/
  match o with
  | OInitUpload path size =>
      (er = EFileAlreadyExists /\ is_Some (files s !! path)) \/
      (er = EStorageCanisterError "File size exceeds the maximum limit of 2GB" /\ 2 * 1024 * 1024 * 1024 < size)
  | OStoreChunk path | OCancel path =>
      (er = EUploadNotInitialized /\ files s !! path = None) \/
      (er = EUploadAlreadyFinalized /\ status s path = Some UFinalized)
  | OFinalize path =>
      (er = EUploadNotStarted /\ (files s !! path = None \/ status s path = Some UInit)) \/
      (er = EUploadAlreadyFinalized /\ status s path = Some UFinalized)
  | _ => False
  end.

Theorem C92_upload_reasons e o s s' er :
  reachable s -> match o with OInitUpload _ _ | OStoreChunk _ | OFinalize _ | OCancel _ => True | _ => False end ->
  step e o s = (s', AErr er) -> upload_reason s o er.
Proof.
  intros Hr Ho. pose proof (reachable_up_inv s Hr) as U.
  destruct o; try contradiction; cbn [step]; unfold init_upload, store_chunk, finalize_upload, cancel_upload, upload_entry;
    (destruct (has_permission _ _ _); [|discriminate]); rewrite guard_new_spec;
    (destruct (decide (guards s = ∅)) as [G|G]; [|intros [= _ <-]; left; auto]);
    unfold init_upload_first, store_chunk_first, finalize_upload_first, cancel_upload_first; cbn [files subs set_guards];
    change (contains_path (set_guards _ s)) with (contains_path s); unfold upload_reason, status.
  - rewrite contains_path_true by (apply (up_path s U)). destruct (bool_decide _) eqn:B.
    { intros [= _ <-]. right. left. split; [reflexivity|]. apply bool_decide_eq_true in B. exact B. }
    destruct (max_file_size <? size) eqn:Z; [|discriminate]. intros [= _ <-]. right. right. split; [reflexivity|].
    apply N.ltb_lt in Z. exact Z.
  - destruct (files s !! path) as [u|] eqn:F; [|intros [= _ <-]; right; left; auto].
    destruct (u_state u) eqn:Su; try (intros [= _ <-]; right; right; split; [reflexivity|simpl; congruence]);
      rewrite (bool_decide_eq_true_2 _ (up_subs s U _ _ F)); discriminate.
  - destruct (files s !! path) as [u|] eqn:F; [|intros [= _ <-]; right; left; auto].
    destruct (u_state u) eqn:Su; try (intros [= _ <-]; right; right; split; [reflexivity|simpl; congruence]).
    + intros [= _ <-]. right. left. split; [reflexivity|]. right. simpl. congruence.
    + rewrite (bool_decide_eq_true_2 _ (up_subs s U _ _ F)). discriminate.
  - destruct (files s !! path) as [u|] eqn:F; [|intros [= _ <-]; right; left; auto].
    destruct (u_state u) eqn:Su; try (intros [= _ <-]; right; right; split; [reflexivity|simpl; congruence]);
      rewrite (bool_decide_eq_true_2 _ (up_subs s U _ _ F)); discriminate.
Qed.
Print Assumptions C92_upload_reasons.

(** An error after the wait is the one the storage canisters gave. *)
Theorem C92_upload_reply e id r s s' er :
  step e (OReply id r) s = (s', AErr er) -> r = RErr er \/ exists c, r = RInitErr c er.
Proof.
  cbn [step]. unfold resume. destruct (pend s !! id) as [p|]; [|discriminate].
  destruct p, r; cbn; try discriminate; intros [= _ <-]; eauto.
Qed.
Print Assumptions C92_upload_reply.

Example C92_upload_case :
  let s := run (take 2 (upload_h "/a" [7] 0)) demo0 in
  map (fun o => snd (step (from_ admin 9) o s))
      [OInitUpload "/a" 5; OFinalize "/a"; OStoreChunk "/b"; OCancel "/b"; OInitUpload "/b" 2147483649] =
    [AErr EFileAlreadyExists; AErr EUploadNotStarted; AErr EUploadNotInitialized; AErr EUploadNotInitialized;
     AErr (EStorageCanisterError "File size exceeds the maximum limit of 2GB")] /\
  snd (step (from_ admin 9) (OCancel "/a") (run (upload_h "/a" [7] 0) demo0)) = AErr EUploadAlreadyFinalized.
Proof. split; vm_compute; reflexivity. Qed.
