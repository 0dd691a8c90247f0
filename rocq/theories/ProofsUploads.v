(** Invariants of uploads, pending calls and redirections. *)
From Verif Require Import Base ModelPrincipal ModelState ModelIcrc7 ModelIcrc37 ModelManagement ModelLifecycle
  ModelQueries ModelStep ProofsItems ProofsManage ProofsMicro Spec ProofsCore ProofsLock.

(** A pending call describes the record it will write. *)
Definition pend_ok (s : state) (p : pending) : Prop :=
  match p with
  | PInit _ path snap => files s !! path = None /\ snap = subs s
  | PStore _ key i c path =>
      exists u, files s !! key = Some u /\ u_state u <> UFinalized /\ i = u_init u /\ c = u_canister u /\ path = u_path u
  | PFinalize _ key i c path =>
      exists u, files s !! key = Some u /\ u_state u = UInProgress /\ i = u_init u /\ c = u_canister u /\ path = u_path u
  | PCancel _ key => exists u, files s !! key = Some u /\ u_state u <> UFinalized
  end.

Record up_inv (s : state) : Prop := {
  up_lock : lock_inv s;
  up_path : forall k u, files s !! k = Some u -> u_path u = k;
  up_subs : forall k u, files s !! k = Some u -> u_canister u ∈ subs s;
  up_pend : forall id p, pend s !! id = Some p -> pend_ok s p;
  up_redir : forall p url, redirs s !! p = Some url ->
    exists k u, files s !! k = Some u /\ u_state u = UFinalized /\ norm_path k = p /\ url = redirection_url (u_canister u) p;
  up_final : forall k u, files s !! k = Some u -> u_state u = UFinalized -> is_Some (redirs s !! norm_path k);
  up_ids : forall id p, pend s !! id = Some p -> id < next_pend s
}.

Lemma contains_path_false s path u :
  contains_path s path = false -> files s !! path = Some u -> u_path u = path -> False.
Proof.
  unfold contains_path. intros H F P. apply not_true_iff_false in H. apply H. apply existsb_exists.
  exists (path, u). split; [apply elem_of_list_In, elem_of_map_to_list; exact F|].
  apply bool_decide_eq_true. exact P.
Qed.

Lemma contains_path_true s path :
  (forall k u, files s !! k = Some u -> u_path u = k) -> contains_path s path = bool_decide (is_Some (files s !! path)).
Proof.
  intros H. destruct (contains_path s path) eqn:C.
  - symmetry. apply bool_decide_eq_true. unfold contains_path in C. apply existsb_exists in C.
    destruct C as ([k u] & Hin & E). apply elem_of_list_In, elem_of_map_to_list in Hin. apply bool_decide_eq_true in E.
    simpl in E. rewrite (H _ _ Hin) in E. subst. eauto.
  - symmetry. apply bool_decide_eq_false. intros [u F]. eapply contains_path_false; eauto.
Qed.

Lemma files_same_inv s s' :
  files s' = files s -> subs s' = subs s -> redirs s' = redirs s -> pend s' = pend s -> next_pend s' = next_pend s ->
  lock_inv s' -> up_inv s -> up_inv s'.
Proof.
  intros F S R P I L U. destruct U as [U1 U2 U3 U4 U5 U6 U7]. constructor; rewrite ?F, ?S, ?R, ?P, ?I; auto.
  intros id p Hp. specialize (U4 id p Hp). destruct p; simpl in *; rewrite ?F, ?S; exact U4.
Qed.

Lemma continue_up_inv now id p r s :
  up_inv s -> pend s !! id = Some p ->
  forall s1, s1 = set_pend (delete id (pend (fst (continue now p r s)))) (guard_drop (pending_caller p) (fst (continue now p r s))) ->
  lock_inv s1 -> up_inv s1.
Proof.
  intros U Hp s1 -> L1. destruct U as [L U2 U3 U4 U5 U6 U7]. pose proof (U4 _ _ Hp) as OK.
  destruct L as [LA LB].
  assert (E : delete id (pend s) = ∅) by (rewrite (size_le_1 _ _ _ LA Hp); apply delete_singleton).
  assert (Triv : forall s2, files s2 = files s -> subs s2 = subs s -> redirs s2 = redirs s -> pend s2 = ∅ -> lock_inv s2 -> up_inv s2).
  { intros s2 F S R P L2. constructor; rewrite ?F, ?S, ?R, ?P; auto; intros ? ? X; rewrite lookup_empty in X; discriminate. }
  destruct p as [c path snap|c key i cn path|c key i cn path|c key], r; simpl in *; try (apply Triv; simpl; auto; fail).
  - (* init accepted *)
    destruct OK as [OK1 ->]. constructor; [exact L1|..]; simpl; rewrite ?E; auto; try (intros ? ? X; rewrite lookup_empty in X; discriminate).
    + intros k u X. apply lookup_insert_Some in X. destruct X as [[<- <-]|[_ X]]; [reflexivity|auto].
    + intros k u X. apply lookup_insert_Some in X. destruct X as [[<- <-]|[_ X]]; simpl.
      * case_bool_decide; [assumption|apply elem_of_app; right; left].
      * specialize (U3 _ _ X). case_bool_decide; [assumption|apply elem_of_app; auto].
    + intros q url X. destruct (U5 _ _ X) as (k & u & F & Y). exists k, u. split; [|exact Y].
      rewrite lookup_insert_ne; [exact F|]. intros ->. congruence.
    + intros k u X. apply lookup_insert_Some in X. destruct X as [[<- <-]|[_ X]]; [discriminate|]. apply U6. exact X.
  - (* chunk stored *)
    destruct OK as (u0 & F0 & N0 & -> & -> & ->).
    constructor; [exact L1|..]; simpl; rewrite ?E; auto; try (intros ? ? X; rewrite lookup_empty in X; discriminate).
    + intros k u X. apply lookup_insert_Some in X. destruct X as [[<- <-]|[_ X]]; [exact (U2 _ _ F0)|auto].
    + intros k u X. apply lookup_insert_Some in X. destruct X as [[<- <-]|[_ X]]; [exact (U3 _ _ F0)|eapply U3; exact X].
    + intros q url X. destruct (U5 _ _ X) as (k & u & F & Fin & Y). exists k, u. split; [|auto].
      rewrite lookup_insert_ne; [exact F|]. intros ->. congruence.
    + intros k u X. apply lookup_insert_Some in X. destruct X as [[<- <-]|[_ X]]; [discriminate|]. apply U6. exact X.
  - (* finalized *)
    destruct OK as (u0 & F0 & N0 & -> & -> & ->). pose proof (U2 _ _ F0) as P0. rewrite P0 in *.
    constructor; [exact L1|..]; simpl; rewrite ?E; auto; try (intros ? ? X; rewrite lookup_empty in X; discriminate).
    + intros k u X. apply lookup_insert_Some in X. destruct X as [[<- <-]|[_ X]]; [reflexivity|auto].
    + intros k u X. apply lookup_insert_Some in X. destruct X as [[<- <-]|[_ X]]; [exact (U3 _ _ F0)|eapply U3; exact X].
    + intros q url X. apply lookup_insert_Some in X. destruct X as [[<- <-]|[Hq X]].
      * exists key, (mkUp (u_init u0) UFinalized (u_canister u0) key). rewrite lookup_insert. auto.
      * destruct (U5 _ _ X) as (k & u & F & Fin & Y). exists k, u. split; [|auto].
        rewrite lookup_insert_ne; [exact F|]. intros ->. congruence.
    + intros k u X Fin. apply lookup_insert_Some in X. destruct X as [[<- <-]|[Hk X]].
      * rewrite lookup_insert. eauto.
      * destruct (decide (norm_path key = norm_path k)) as [->|Hne]; [rewrite lookup_insert; eauto|].
        rewrite lookup_insert_ne by exact Hne. eapply U6; eauto.
  - (* cancelled *)
    destruct OK as (u0 & F0 & N0).
    constructor; [exact L1|..]; simpl; rewrite ?E; auto; try (intros ? ? X; rewrite lookup_empty in X; discriminate).
    + intros k u X. apply lookup_delete_Some in X. destruct X as [_ X]. auto.
    + intros k u X. apply lookup_delete_Some in X. destruct X as [_ X]. eapply U3; eauto.
    + intros q url X. destruct (U5 _ _ X) as (k & u & F & Fin & Y). exists k, u. split; [|auto].
      rewrite lookup_delete_ne; [exact F|]. intros ->. congruence.
    + intros k u X. apply lookup_delete_Some in X. destruct X as [_ X]. apply U6. exact X.
Qed.

Lemma up_inv_micro e o s s' : up_inv s -> micro e o s s' -> up_inv s'.
Proof.
  intros U H. pose proof (up_lock s U) as L. pose proof (lock_inv_micro _ _ _ _ L H) as L'.
  micro_split H; try (refine (files_same_inv _ _ _ _ _ _ _ L' U); reflexivity).
  - (* forget *) exfalso. match goal with F : files s !! _ = Some _, N0 : _ ∉ subs s |- _ => apply N0; eapply (up_subs s U); exact F end.
  - (* wait *)
    match goal with G : guards s = ∅ |- _ => rename G into Hg end.
    match goal with R : first_result _ _ _ _ |- _ => rename R into FR end.
    assert (E : pend s = ∅).
    { apply map_empty. intros id. destruct (pend s !! id) as [x|] eqn:X; [|reflexivity].
      destruct L as [_ L2]. apply L2 in X. exfalso. rewrite X in Hg. revert Hg. apply non_empty_singleton_L. }
    destruct U as [_ U2 U3 U4 U5 U6 U7]. constructor; simpl; auto.
    + intros id p' X. rewrite E in X. apply lookup_insert_Some in X. destruct X as [[_ <-]|[_ X]];
        [|rewrite lookup_empty in X; discriminate].
      inversion FR; subst; simpl; eauto 8.
      split; [|reflexivity]. destruct (files s !! path) as [u|] eqn:F; [|reflexivity].
      exfalso. eapply contains_path_false; eauto.
    + intros id p' X. rewrite E in X. apply lookup_insert_Some in X. destruct X as [[<- _]|[_ X]]; [lia|].
      rewrite lookup_empty in X. discriminate.
  - (* reply *) eapply continue_up_inv; eauto.
  - (* upgrade *) destruct U as [_ U2 U3 U4 U5 U6 U7]. constructor; simpl; auto; intros ? ? X; rewrite lookup_empty in X; discriminate.
Qed.

Lemma init_up_inv caller url_ok a s : init caller url_ok a = Some s -> up_inv s.
Proof.
  intros Hi. destruct (init_lock_inv _ _ _ _ Hi) as (L & _). apply init_inv in Hi. destruct Hi as (_ & _ & _ & _ & E).
  subst s. constructor; simpl; [exact L|..]; intros ? ? X; rewrite lookup_empty in X; discriminate.
Qed.

Lemma reachable_up_inv s : reachable s -> up_inv s.
Proof.
  intros (c & u & a & s0 & h & Hi & ->). apply (run_inv up_inv).
  - intros e o s1 s2. apply up_inv_micro.
  - eapply init_up_inv; eauto.
Qed.

Lemma run_up_inv h s : up_inv s -> up_inv (run h s).
Proof. apply (run_inv up_inv). intros e o s1 s2. apply up_inv_micro. Qed.

(** Only replies change uploads, redirections and the list of storage canisters. *)
Lemma step_files e o s :
  up_inv s -> (forall id r, o <> OReply id r) ->
  files (fst (step e o s)) = files s /\ redirs (fst (step e o s)) = redirs s /\ subs (fst (step e o s)) = subs s.
Proof.
  intros U N0.
  apply (step_rel up_inv (fun a b => files b = files a /\ redirs b = redirs a /\ subs b = subs a) e o s); auto.
  - intros a b c (A1 & A2 & A3) (B1 & B2 & B3). repeat split; congruence.
  - intros a b Ua M. split; [eapply up_inv_micro; eauto|]. micro_split M; try (repeat split; reflexivity).
    + exfalso. match goal with F : files s0 !! _ = Some _, N0 : _ ∉ subs s0 |- _ => apply N0; eapply (up_subs s0 Ua); exact F end.
    + destruct (N0 _ _ eq_refl).
Qed.

(** Where a pending call comes from. *)
Lemma step_pend_origin e o s s' an id p :
  step e o s = (s', an) -> pend s' !! id = Some p ->
  pend s !! id = Some p \/
  (waits_for p o /\ pending_caller p = e_caller e /\ an = APending /\ has_permission s (e_caller e) PUpdateUploads = true).
Proof.
  intros S Hp.
  assert (Q : forall s2, micros e o s s2 -> (forall s1 s2, micro e o s1 s2 -> pend s2 = pend s1) -> pend s2 = pend s).
  { clear. intros s2 M C. induction M as [|x y z M1 M2 IH]; [reflexivity|]. rewrite IH. apply C. exact M1. }
  assert (F : forall first, ans_upload (upload_entry e s first) = (s', an) ->
     (forall s0 s1 x, first s0 = (s1, x) -> pend s1 = pend s0 /\ forall q, x = inr q -> waits_for q o /\ pending_caller q = e_caller e) ->
     pend s !! id = Some p \/
     (waits_for p o /\ pending_caller p = e_caller e /\ an = APending /\ has_permission s (e_caller e) PUpdateUploads = true)).
  { intros first H C. unfold upload_entry in H. destruct (has_permission _ _ _) eqn:P; [|injection H as <- <-; auto].
    rewrite guard_new_spec in H. destruct (decide (guards s = ∅)); [|injection H as <- <-; auto].
    destruct (first (set_guards {[e_caller e]} s)) as [s1 x] eqn:E. destruct (C _ _ _ E) as [C1 C2]. simpl in C1.
    destruct x as [er|q]; injection H as <- <-; simpl in Hp; [rewrite C1 in Hp; auto|].
    apply lookup_insert_Some in Hp. destruct Hp as [[_ <-]|[_ Hp]]; [|rewrite C1 in Hp; auto].
    right. destruct (C2 _ eq_refl). auto. }
  assert (M : micros e o s s') by (pose proof (step_micros e o s) as X; rewrite S in X; exact X).
  destruct o; try (left; rewrite <- (Q _ M); [exact Hp|]; clear; intros s1 s2 H; inversion H; subst; open_quiet; try reflexivity;
      repeat match goal with X : _ \/ _ |- _ => destruct X end;
      repeat match goal with X : exists _, _ |- _ => destruct X end; discriminate).
  - apply (F (init_upload_first e path size) S). intros s0 s1 x H. unfold init_upload_first in H.
    destruct (contains_path s0 path); [injection H as <- <-; split; [auto|discriminate]|].
    destruct (_ <? _); injection H as <- <-; (split; [auto|]); [discriminate|]. intros q [= <-]. simpl. auto.
  - apply (F (store_chunk_first e path) S). intros s0 s1 x H. unfold store_chunk_first in H.
    destruct (files s0 !! path) as [u|]; [|injection H as <- <-; split; [auto|discriminate]].
    destruct (u_state u); try destruct (bool_decide _); injection H as <- <-; (split; [auto|]); intros q X; inversion X; subst; simpl; auto.
  - apply (F (finalize_upload_first e path) S). intros s0 s1 x H. unfold finalize_upload_first in H.
    destruct (files s0 !! path) as [u|]; [|injection H as <- <-; split; [auto|discriminate]].
    destruct (u_state u); try destruct (bool_decide _); injection H as <- <-; (split; [auto|]); intros q X; inversion X; subst; simpl; auto.
  - apply (F (cancel_upload_first e path) S). intros s0 s1 x H. unfold cancel_upload_first in H.
    destruct (files s0 !! path) as [u|]; [|injection H as <- <-; split; [auto|discriminate]].
    destruct (u_state u); try destruct (bool_decide _); injection H as <- <-; (split; [auto|]); intros q X; inversion X; subst; simpl; auto.
  - left. simpl in S. unfold resume in S. destruct (pend s !! id0) as [p0|] eqn:P0; [|injection S as <- _; exact Hp].
    destruct (continue _ _ _ _) as [s1 a] eqn:K.
    pose proof (continue_frame (e_now e) p0 r s) as (_ & K2 & _). rewrite K in K2. simpl in K2.
    assert (E : pend s' = delete id0 (pend s)) by (destruct a as [[| |]|]; injection S as <- _; simpl; rewrite K2; reflexivity).
    rewrite E in Hp. apply lookup_delete_Some in Hp. tauto.
  - left. simpl in S. injection S as <- _. simpl in Hp. rewrite lookup_empty in Hp. discriminate.
Qed.
