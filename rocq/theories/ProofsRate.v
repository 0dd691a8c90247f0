(** The rate limiter. *)
From Verif Require Import Base ModelPrincipal ModelState ModelIcrc7 ModelIcrc37 ModelManagement ModelLifecycle
  ModelQueries ModelStep ProofsItems ProofsManage ProofsMicro Spec ProofsCore.

(** The limiter on its memory alone. *)
Definition guard_w (now tid : N) (w : gmap N (list N)) : gmap N (list N) * bool :=
  let kept := filter (fun t => sat_sub now t < window_ns) (default [] (w !! tid)) in
  if window_calls <=? nlen kept then (<[tid := kept]> w, false) else (<[tid := kept ++ [now]]> w, true).

Lemma guard_w_eq now tid s :
  guard_sliding_window now tid s = (set_windows (fst (guard_w now tid (windows s))) s, snd (guard_w now tid (windows s))).
Proof. unfold guard_sliding_window, guard_w. destruct (_ <=? _); reflexivity. Qed.

(** A list of attempts, run on the memory. *)
Inductive win_run (now : N) : gmap N (list N) -> list (N * bool) -> gmap N (list N) -> Prop :=
| wr_nil w : win_run now w [] w
| wr_cons w tid b l w' : snd (guard_w now tid w) = b -> win_run now (fst (guard_w now tid w)) l w' ->
    win_run now w ((tid, b) :: l) w'.

Lemma win_one now tid w b : snd (guard_w now tid w) = b -> win_run now w [(tid, b)] (fst (guard_w now tid w)).
Proof. intros H. econstructor; [exact H|constructor]. Qed.

Lemma win_app now w1 l1 w2 l2 w3 : win_run now w1 l1 w2 -> win_run now w2 l2 w3 -> win_run now w1 (l1 ++ l2) w3.
Proof. induction 1; intros; simpl; [auto|]. econstructor; eauto. Qed.

Lemma add_transaction_windows e t s s' a : add_transaction e t s = (s', a) -> windows s' = windows s.
Proof. unfold add_transaction. destruct (e_log _ _ _); intros [= <- _]; reflexivity. Qed.

(** One attempt at the head of an item function. *)
Ltac item_head :=
  match goal with
  | H : context [guard_sliding_window ?n ?t ?s] |- _ =>
      rewrite (guard_w_eq n t s) in H; cbv beta iota zeta in H;
      destruct (guard_w n t (windows s)) as [w b] eqn:G; cbn [fst snd] in H; destruct b; cbn [negb] in H
  end.
Ltac item_tail :=
  repeat match goal with
  | H : Some _ = Some _ |- _ => injection H as <- <-
  | H : None = Some _ |- _ => discriminate
  | H : context [match ?b with _ => _ end] |- _ =>
      match b with
      | add_transaction _ _ _ => let A := fresh "A" in destruct b eqn:A; apply add_transaction_windows in A
      | _ => destruct b eqn:?
      end
  end.

Lemma transfer_win e s a s' r : transfer_nft e s a = Some (s', r) ->
  win_run (e_now e) (windows s) [(ta_tid a, negb (limited r))] (windows s') /\ refused_batch r = false.
Proof.
  unfold transfer_nft. intros H. item_head.
  - assert (windows s' = w /\ limited r = false /\ refused_batch r = false) as (-> & -> & ->).
    { item_tail; simpl in *; repeat split; auto. }
    split; [|reflexivity]. pose proof (win_one (e_now e) (ta_tid a) (windows s) true) as X. rewrite G in X. apply X. reflexivity.
  - injection H as <- <-. split; [|reflexivity]. simpl.
    pose proof (win_one (e_now e) (ta_tid a) (windows s) false) as X. rewrite G in X. apply X. reflexivity.
Qed.

Lemma approve_win e s a s' r : approve_token e s a = Some (s', r) ->
  win_run (e_now e) (windows s) [(ap_tid a, negb (limited r))] (windows s').
Proof.
  unfold approve_token. intros H. item_head.
  - assert (windows s' = w /\ limited r = false) as (-> & ->).
    { item_tail; simpl in *; repeat split; auto. }
    pose proof (win_one (e_now e) (ap_tid a) (windows s) true) as X. rewrite G in X. apply X. reflexivity.
  - injection H as <- <-. simpl.
    pose proof (win_one (e_now e) (ap_tid a) (windows s) false) as X. rewrite G in X. apply X. reflexivity.
Qed.

Lemma approve_coll_win e s a s' r : approve_collection e s a = Some (s', r) ->
  win_run (e_now e) (windows s) [(0, negb (limited r))] (windows s').
Proof.
  unfold approve_collection. intros H. item_head.
  - assert (windows s' = w /\ limited r = false) as (-> & ->).
    { item_tail; simpl in *; repeat split; auto. }
    pose proof (win_one (e_now e) 0 (windows s) true) as X. rewrite G in X. apply X. reflexivity.
  - injection H as <- <-. simpl.
    pose proof (win_one (e_now e) 0 (windows s) false) as X. rewrite G in X. apply X. reflexivity.
Qed.

Lemma revoke_coll_win e s a s' r : revoke_collection_approvals e s a = Some (s', r) ->
  win_run (e_now e) (windows s) [(0, negb (limited r))] (windows s').
Proof.
  unfold revoke_collection_approvals. intros H. item_head.
  - assert (windows s' = w /\ limited r = false) as (-> & ->).
    { item_tail; simpl in *; repeat split; auto. }
    pose proof (win_one (e_now e) 0 (windows s) true) as X. rewrite G in X. apply X. reflexivity.
  - injection H as <- <-. simpl.
    pose proof (win_one (e_now e) 0 (windows s) false) as X. rewrite G in X. apply X. reflexivity.
Qed.

Lemma revoke_win e s a s' r : revoke_token_approvals e s a = Some (s', r) -> windows s' = windows s.
Proof. unfold revoke_token_approvals. intros H. item_tail; simpl in *; auto. Qed.

Lemma check_token_win now tid sp s s' b : check_token_approval now tid sp s = (s', b) -> windows s' = windows s.
Proof. unfold check_token_approval. intros H. repeat case_match; injection H as <- _; reflexivity. Qed.
Lemma check_coll_win now ow sp s s' b : check_collection_approval now ow sp s = (s', b) -> windows s' = windows s.
Proof. unfold check_collection_approval. intros H. repeat case_match; injection H as <- _; reflexivity. Qed.

Lemma transfer_from_win e s a s' r : transfer_from e s a = Some (s', r) ->
  win_run (e_now e) (windows s) [(tf_tid a, negb (limited r))] (windows s').
Proof.
  unfold transfer_from. intros H. item_head.
  - assert (windows s' = w /\ limited r = false) as (-> & ->).
    { destruct (verify_opt_timing _ _ _); [|injection H as <- <-; auto..].
      destruct (tokens _ !! _); [|injection H as <- <-; auto].
      destruct (acc_eqb _ _); [injection H as <- <-; auto|]. destruct (acc_eqb _ _); [injection H as <- <-; auto|].
      destruct (check_token_approval _ _ _ _) as [s2 b2] eqn:C1. apply check_token_win in C1.
      destruct (check_collection_approval _ _ _ _) as [s3 b3] eqn:C2. apply check_coll_win in C2.
      simpl in C1. destruct (_ || _); [injection H as <- <-; split; [congruence|reflexivity]|].
      destruct (add_transaction _ _ _) as [s4 ans] eqn:A. apply add_transaction_windows in A.
      destruct ans; injection H as <- <-; simpl; (split; [congruence|]); try reflexivity.
      destruct (str_contains _ _); reflexivity. }
    pose proof (win_one (e_now e) (tf_tid a) (windows s) true) as X. rewrite G in X. apply X. reflexivity.
  - injection H as <- <-. simpl.
    pose proof (win_one (e_now e) (tf_tid a) (windows s) false) as X. rewrite G in X. apply X. reflexivity.
Qed.

Lemma items_win {A} (f : state -> A -> option (state * res N)) (key : A -> N) now :
  (forall s a s' r, f s a = Some (s', r) -> win_run now (windows s) [(key a, negb (limited r))] (windows s')) ->
  forall l s s' rs, run_items f s l = Some (s', rs) ->
    win_run now (windows s) (map (fun x => (key (fst x), negb (limited (snd x)))) (zip l rs)) (windows s').
Proof.
  intros Hf. induction l as [|a l IH]; intros s s' rs H; simpl in H.
  - injection H as <- <-. constructor.
  - destruct (f s a) as [[s1 b]|] eqn:F; [|discriminate].
    destruct (run_items f s1 l) as [[s2 bs']|] eqn:G; [|discriminate]. injection H as <- <-.
    apply Hf in F. apply IH in G. simpl. exact (win_app _ _ [_] _ _ _ F G).
Qed.

Lemma items_win_none {A B} (f : state -> A -> option (state * B)) :
  (forall s a s' r, f s a = Some (s', r) -> windows s' = windows s) ->
  forall l s s' rs, run_items f s l = Some (s', rs) -> windows s' = windows s.
Proof.
  intros Hf. induction l as [|a l IH]; intros s s' rs H; simpl in H.
  - injection H as <- <-. reflexivity.
  - destruct (f s a) as [[s1 b]|] eqn:F; [|discriminate].
    destruct (run_items f s1 l) as [[s2 bs']|] eqn:G; [|discriminate]. injection H as <- <-.
    rewrite (IH _ _ _ G). eapply Hf; eauto.
Qed.

Lemma items_refused e l : forall s s' rs, run_items (transfer_nft e) s l = Some (s', rs) ->
  forall r, r ∈ rs -> refused_batch r = false.
Proof.
  induction l as [|a l IH]; intros s s' rs H r Hr; simpl in H.
  - injection H as <- <-. apply elem_of_nil in Hr. contradiction.
  - destruct (transfer_nft e s a) as [[s1 b]|] eqn:F; [|discriminate].
    destruct (run_items (transfer_nft e) s1 l) as [[s2 bs']|] eqn:G; [|discriminate]. injection H as <- <-.
    apply elem_of_cons in Hr as [->|Hr]; [|eapply IH; eauto]. apply transfer_win in F. tauto.
Qed.

Lemma zip_take_n {A B} n (l : list A) (rs : list B) :
  length rs = length (take_n n l) -> zip (take_n n l) rs = zip l rs.
Proof.
  unfold take_n. generalize (N.to_nat (N.min n (nlen l))) as k. intros k. clear n. revert k rs.
  induction l as [|a l IH]; intros [|k] [|b rs]; simpl; try reflexivity; try discriminate.
  intros [= H]. f_equal. apply IH. exact H.
Qed.

Lemma filter_all {A} (P : A -> Prop) `{!forall x, Decision (P x)} (l : list A) :
  (forall x, x ∈ l -> P x) -> filter P l = l.
Proof.
  induction l as [|a l IH]; intros Hl; [reflexivity|]. rewrite filter_cons_True by (apply Hl; left).
  f_equal. apply IH. intros. apply Hl. right; auto.
Qed.

Lemma zip_snd_in {A B} (l : list A) (rs : list B) x : x ∈ zip l rs -> snd x ∈ rs.
Proof. destruct x as [a b]. intros H. apply elem_of_zip_r in H. exact H. Qed.

Lemma upload_entry_windows e s f :
  (forall s, windows (fst (f s)) = windows s) -> windows (fst (upload_entry e s f)) = windows s.
Proof.
  intros Hf. unfold upload_entry. destruct (has_permission _ _ _); [|reflexivity].
  rewrite guard_new_spec. destruct (decide _); [|reflexivity].
  pose proof (Hf (set_guards {[e_caller e]} s)) as X.
  destruct (f _) as [s2 [er|p]]; simpl in *; exact X.
Qed.

Lemma with_lock_windows {A} e s (body : state -> option (state * mres A)) s' r :
  (forall s s' r, body s = Some (s', r) -> windows s' = windows s) ->
  with_lock e s body = Some (s', r) -> windows s' = windows s.
Proof.
  intros Hb. unfold with_lock. rewrite guard_new_spec. destruct (decide _); [|intros [= <- _]; reflexivity].
  destruct (body _) as [[s2 r2]|] eqn:B; [|discriminate]. intros [= <- _]. simpl.
  apply Hb in B. exact B.
Qed.

Lemma mint_log_windows e l id s : windows (fst (mint_log e id l s)) = windows s.
Proof.
  revert id s. induction l as [|r l IH]; intros id s; simpl; [reflexivity|].
  destruct (add_transaction _ _ _) as [s1 ans] eqn:A. apply add_transaction_windows in A.
  destruct ans; simpl; try exact A. rewrite IH. exact A.
Qed.

Lemma step_win e o s s' a :
  step e o s = (s', a) -> win_run (e_now e) (windows s) (attempts (mkEv s e o a s')) (windows s').
Proof.
  assert (none : forall w, w = windows s -> win_run (e_now e) (windows s) [] w) by (intros w ->; constructor).
  destruct o; unfold attempts; cbn [ev_op ev_ans]; intros H; simpl in H.
  - unfold ans_batch, icrc7_transfer in H. destruct args as [|a0 l0].
    { injection H as <- <-. simpl. constructor. }
    set (l := a0 :: l0) in *.
    destruct (usize_try _) as [mx|]; [|injection H as <- <-; constructor].
    destruct (_ && _); [injection H as <- <-; subst l; simpl; rewrite filter_cons_False by discriminate;
      destruct l0; simpl; constructor|].
    destruct (bool_decide _); [injection H as <- <-; subst l; simpl; rewrite filter_cons_False by discriminate;
      destruct l0; simpl; constructor|].
    destruct (run_items _ _ _) as [[s1 rs]|] eqn:R; [|injection H as <- <-; constructor].
    injection H as <- <-.
    rewrite filter_all.
    2: { intros x Hx. apply zip_snd_in in Hx. eapply items_refused; eauto. }
    rewrite <- (zip_take_n mx) by (eapply run_items_length; eauto).
    eapply (items_win (transfer_nft e) ta_tid); [|exact R]. intros. eapply transfer_win; eauto.
  - unfold ans_batch, icrc37_approve_tokens in H. destruct (run_items _ _ _) as [[s1 rs]|] eqn:R; injection H as <- <-;
      [|constructor]. eapply (items_win (approve_token e) ap_tid); [|exact R]. intros. eapply approve_win; eauto.
  - unfold ans_batch, icrc37_approve_collection in H. destruct (run_items _ _ _) as [[s1 rs]|] eqn:R; injection H as <- <-;
      [|constructor]. eapply (items_win (approve_collection e) (fun _ => 0)); [|exact R]. intros. eapply approve_coll_win; eauto.
  - unfold icrc37_revoke_token_approvals in H. destruct args as [|a0 l0]; [injection H as <- <-; constructor|].
    rewrite guard_w_eq in H. destruct (guard_w _ _ _) as [w b] eqn:G. cbn [fst snd] in H.
    pose proof (win_one (e_now e) (rv_tid a0) (windows s) b) as X. rewrite G in X. specialize (X eq_refl). simpl in X.
    destruct b; cbn [negb] in H; [|injection H as <- <-; exact X].
    destruct (run_items _ _ _) as [[s1 rs]|] eqn:R; injection H as <- <-; [|constructor].
    rewrite (items_win_none _ (revoke_win e) _ _ _ _ R). exact X.
  - unfold ans_batch, icrc37_revoke_collection_approvals in H.
    destruct (run_items _ _ _) as [[s1 rs]|] eqn:R; injection H as <- <-; [|constructor].
    rewrite <- (zip_take_n (usize_limit (c_max_revoke (cfg s)))) by (eapply run_items_length; eauto).
    eapply (items_win (revoke_collection_approvals e) (fun _ => 0)); [|exact R]. intros. eapply revoke_coll_win; eauto.
  - unfold ans_batch, icrc37_transfer_from in H. destruct (run_items _ _ _) as [[s1 rs]|] eqn:R; injection H as <- <-;
      [|constructor]. eapply (items_win (transfer_from e) tf_tid); [|exact R]. intros. eapply transfer_from_win; eauto.
  - unfold ans_unit, update_collection_metadata, with_permission in H.
    destruct (has_permission _ _ _); [|injection H as <- <-; constructor].
    destruct (with_lock _ _ _) as [[s1 r]|] eqn:L; [|injection H as <- <-; constructor].
    apply none. apply with_lock_windows in L; [destruct r; injection H as <- <-; exact L|].
    intros ? ? ? [= <- _]. reflexivity.
  - unfold ans_nat, mint, with_permission in H.
    destruct (has_permission _ _ _); [|injection H as <- <-; constructor].
    destruct (with_lock _ _ _) as [[s1 r]|] eqn:L; [|injection H as <- <-; constructor].
    apply none. apply with_lock_windows in L; [destruct r; injection H as <- <-; exact L|].
    intros t t' r' B. destruct (mint_body_inv _ _ _ _ _ B) as
      [(-> & er & -> & _)|(CM & Mx & Cap & m & idxs & n & Me & [(msg & -> & Hl & ->)|(-> & Hl & ->)])]; reflexivity.
  - unfold ans_nat, update_nft_metadata, with_permission in H.
    destruct (has_permission _ _ _); [|injection H as <- <-; constructor].
    destruct (with_lock _ _ _) as [[s1 r]|] eqn:L; [|injection H as <- <-; constructor].
    apply none. apply with_lock_windows in L; [destruct r; injection H as <- <-; exact L|].
    intros t t' r' B. unfold update_nft_metadata_body in B.
    destruct (tokens t !! tid); [|injection B as <- _; reflexivity].
    destruct (replace_metadata _ _ _); [|discriminate].
    destruct (add_transaction _ _ _) as [t2 ans] eqn:A. apply add_transaction_windows in A.
    destruct ans; injection B as <- _; exact A.
  - unfold ans_unit, burn_nft in H.
    destruct (with_lock _ _ _) as [[s1 r]|] eqn:L; [|injection H as <- <-; constructor].
    apply none. apply with_lock_windows in L; [destruct r; injection H as <- <-; exact L|].
    intros t t' r' B. unfold burn_body in B.
    destruct (tokens t !! tid); [|injection B as <- _; reflexivity].
    destruct (negb _); [injection B as <- _; reflexivity|].
    destruct (add_transaction _ _ _) as [t2 ans] eqn:A. apply add_transaction_windows in A.
    destruct ans; injection B as <- _; exact A.
  - unfold ans_unit, grant_permission, with_permission in H.
    destruct (has_permission _ _ _); [|injection H as <- <-; constructor].
    destruct (with_lock _ _ _) as [[s1 r]|] eqn:L; [|injection H as <- <-; constructor].
    apply none. apply with_lock_windows in L; [destruct r; injection H as <- <-; exact L|].
    intros ? ? ? [= <- _]. reflexivity.
  - unfold ans_unit, revoke_permission, with_permission in H.
    destruct (has_permission _ _ _); [|injection H as <- <-; constructor].
    destruct (with_lock _ _ _) as [[s1 r]|] eqn:L; [|injection H as <- <-; constructor].
    apply none. apply with_lock_windows in L; [destruct r; injection H as <- <-; exact L|].
    intros ? ? ? [= <- _]. reflexivity.
  - apply none. pose proof (upload_entry_windows e s (init_upload_first e path size)) as X.
    unfold init_upload in H. destruct (upload_entry _ _ _) as [s1 [[?|?|?]|]]; injection H as <- <-; apply X;
      intros t; unfold init_upload_first; repeat case_match; reflexivity.
  - apply none. pose proof (upload_entry_windows e s (store_chunk_first e path)) as X.
    unfold store_chunk in H. destruct (upload_entry _ _ _) as [s1 [[?|?|?]|]]; injection H as <- <-; apply X;
      intros t; unfold store_chunk_first; repeat case_match; reflexivity.
  - apply none. pose proof (upload_entry_windows e s (finalize_upload_first e path)) as X.
    unfold finalize_upload in H. destruct (upload_entry _ _ _) as [s1 [[?|?|?]|]]; injection H as <- <-; apply X;
      intros t; unfold finalize_upload_first; repeat case_match; reflexivity.
  - apply none. pose proof (upload_entry_windows e s (cancel_upload_first e path)) as X.
    unfold cancel_upload in H. destruct (upload_entry _ _ _) as [s1 [[?|?|?]|]]; injection H as <- <-; apply X;
      intros t; unfold cancel_upload_first; repeat case_match; reflexivity.
  - apply none. unfold resume in H. destruct (pend s !! id) as [p|]; [|injection H as <- _; reflexivity].
    destruct p, r; simpl in H; injection H as <- _; reflexivity.
  - injection H as <- <-. constructor.
Qed.

(** ** The invariant of the memory *)

(** The memory of one token, against the passes so far and the latest time. *)
Definition win_inv (tid : N) (P : list N) (T : N) (w : gmap N (list N)) : Prop :=
  StronglySorted N.le P /\ (forall t, t ∈ P -> t <= T) /\
  (exists old, P = old ++ default [] (w !! tid) /\ forall t, t ∈ old -> t + window_ns <= T) /\
  (forall k p q, P !! k = Some p -> P !! (k + 5)%nat = Some q -> p + window_ns <= q).

Lemma filter_window_split now l :
  StronglySorted N.le l ->
  exists l1, l = l1 ++ filter (fun t => sat_sub now t < window_ns) l /\ forall t, t ∈ l1 -> t + window_ns <= now.
Proof.
  induction 1 as [|a l S IH F]; [exists []; split; [reflexivity|intros t X; apply elem_of_nil in X; contradiction]|].
  destruct (decide (sat_sub now a < window_ns)) as [D|D].
  - exists []. split; [|intros t X; apply elem_of_nil in X; contradiction]. simpl.
    rewrite filter_cons_True by exact D. f_equal. symmetry. apply filter_all.
    intros x Hx. rewrite Forall_forall in F. specialize (F x Hx). unfold sat_sub in *. lia.
  - rewrite filter_cons_False by exact D. destruct IH as (l1 & E & Hl). exists (a :: l1). simpl. split; [f_equal; exact E|].
    intros t Ht. apply elem_of_cons in Ht as [->|Ht]; [|auto]. unfold sat_sub, window_ns in *. lia.
Qed.

Lemma StronglySorted_snoc (l : list N) x :
  StronglySorted N.le l -> (forall t, t ∈ l -> t <= x) -> StronglySorted N.le (l ++ [x]).
Proof.
  induction 1 as [|a l S IH F]; intros H; simpl; [repeat constructor|].
  constructor; [apply IH; intros; apply H; right; auto|].
  rewrite Forall_app. split; [exact F|]. repeat constructor. apply H. left.
Qed.

Lemma StronglySorted_app_r (l1 l2 : list N) : StronglySorted N.le (l1 ++ l2) -> StronglySorted N.le l2.
Proof. induction l1; simpl; [auto|]. intros H. inversion H; auto. Qed.

Lemma win_inv_time tid P T T' w : win_inv tid P T w -> T <= T' -> win_inv tid P T' w.
Proof.
  intros (S & B & (old & E & O) & K) H. repeat split; auto.
  - intros t Ht. specialize (B t Ht). lia.
  - exists old. split; [exact E|]. intros t Ht. specialize (O t Ht). lia.
Qed.

Lemma guard_w_other now tid tid' w : tid' <> tid -> fst (guard_w now tid' w) !! tid = w !! tid.
Proof. intros H. unfold guard_w. destruct (_ <=? _); simpl; apply lookup_insert_ne; exact H. Qed.

(** One attempt: the invariant is kept, and a refusal means five recent passes. *)
Lemma win_inv_attempt tid P now tid' w :
  win_inv tid P now w ->
  win_inv tid (P ++ (if decide (tid' = tid /\ snd (guard_w now tid' w) = true) then [now] else [])) now
          (fst (guard_w now tid' w)) /\
  (tid' = tid -> snd (guard_w now tid' w) = false ->
   exists l1 l2, P = l1 ++ l2 /\ (5 <= length l2)%nat /\ forall t, t ∈ l2 -> t <= now < t + window_ns).
Proof.
  intros (S & B & (old & E & O) & K).
  destruct (decide (tid' = tid)) as [->|Hne].
  2: { split; [|tauto]. destruct (decide _) as [[? _]|_]; [contradiction|]. rewrite app_nil_r.
       repeat split; auto. exists old. rewrite guard_w_other by exact Hne. auto. }
  set (W := default [] (w !! tid)) in *.
  assert (SW : StronglySorted N.le W) by (rewrite E in S; eapply StronglySorted_app_r; eauto).
  destruct (filter_window_split now W SW) as (l1 & E1 & O1).
  unfold guard_w. fold W. set (kept := filter (fun t => sat_sub now t < window_ns) W) in *.
  assert (EP : P = (old ++ l1) ++ kept) by (rewrite E, E1, app_assoc; reflexivity).
  assert (OO : forall t, t ∈ old ++ l1 -> t + window_ns <= now).
  { intros t. rewrite elem_of_app. intros [?|?]; auto. }
  destruct (window_calls <=? nlen kept) eqn:C; simpl.
  - split.
    + destruct (decide _) as [[_ ?]|_]; [discriminate|]. rewrite app_nil_r. repeat split; auto.
      exists (old ++ l1). rewrite lookup_insert. simpl. split; [exact EP|exact OO].
    + intros _ _. exists (old ++ l1), kept. split; [exact EP|]. split.
      * apply N.leb_le in C. unfold nlen, window_calls in C. lia.
      * intros t Ht. split; [apply B; rewrite EP, elem_of_app; auto|].
        unfold kept in Ht. apply elem_of_list_filter in Ht as [Ht _]. unfold sat_sub in Ht. lia.
  - split; [|discriminate]. destruct (decide _) as [_|X]; [|destruct X; auto].
    apply N.leb_gt in C. unfold nlen, window_calls in C. split; [|split; [|split]].
    + apply StronglySorted_snoc; auto.
    + intros t. rewrite elem_of_app, elem_of_list_singleton. intros [?| ->]; [auto|lia].
    + exists (old ++ l1). rewrite lookup_insert. simpl. split; [rewrite EP, <- !app_assoc; reflexivity|exact OO].
    + intros k p q Hp Hq.
      destruct (decide (k + 5 < length P)%nat) as [D|D].
      * rewrite lookup_app_l in Hq by lia. rewrite lookup_app_l in Hp by lia. eapply K; eauto.
      * assert (k + 5 = length P)%nat as Ek.
        { apply lookup_lt_Some in Hq. rewrite app_length in Hq. simpl in Hq. lia. }
        rewrite lookup_app_r in Hq by lia. rewrite Ek, Nat.sub_diag in Hq. injection Hq as <-.
        rewrite lookup_app_l in Hp by lia. apply OO. apply (elem_of_list_lookup_2 _ k).
        rewrite EP in Hp, Ek. rewrite app_length in Ek. rewrite lookup_app_l in Hp; [exact Hp|]. lia.
Qed.

(** The attempts before a refusal justify it. *)
Definition justified (tid : N) (l : list (N * N * bool)) : Prop :=
  forall l1 l2 now, l = l1 ++ (now, tid, false) :: l2 ->
    exists p1 p2, passes tid l1 = p1 ++ p2 /\ (5 <= length p2)%nat /\ forall t, t ∈ p2 -> t <= now < t + window_ns.

Lemma passes_app tid l1 l2 : passes tid (l1 ++ l2) = passes tid l1 ++ passes tid l2.
Proof. unfold passes. rewrite filter_app, map_app. reflexivity. Qed.

Lemma snoc_split {A} (l l1 l2 : list A) x y :
  l ++ [x] = l1 ++ y :: l2 -> (l = l1 /\ x = y /\ l2 = []) \/ exists l3, l2 = l3 ++ [x] /\ l = l1 ++ y :: l3.
Proof.
  destruct l2 as [|z l2 _] using rev_ind.
  - intros H. apply app_inj_tail in H as [-> ->]. auto.
  - intros H. right. exists l2. rewrite app_comm_cons, app_assoc in H. apply app_inj_tail in H as [-> ->]. auto.
Qed.

Lemma win_run_inv tid now w atts w' :
  win_run now w atts w' -> forall L,
  win_inv tid (passes tid L) now w -> justified tid L ->
  win_inv tid (passes tid (L ++ map (fun x => (now, fst x, snd x)) atts)) now w' /\
  justified tid (L ++ map (fun x => (now, fst x, snd x)) atts).
Proof.
  induction 1 as [w|w tid' b l w' Hb Hr IH]; intros L I J; simpl.
  - rewrite app_nil_r. auto.
  - destruct (win_inv_attempt tid (passes tid L) now tid' w I) as [I' R]. rewrite Hb in *.
    rewrite cons_middle, app_assoc. apply IH.
    + rewrite passes_app. replace (passes tid [(now, tid', b)]) with (if decide (tid' = tid /\ b = true) then [now] else [] : list N);
        [exact I'|]. unfold passes. rewrite filter_cons. simpl. destruct (decide _); reflexivity.
    + intros l1 l2 t Hl. apply snoc_split in Hl as [(-> & [= -> -> ->] & _)|(l3 & -> & ->)].
      * apply R; reflexivity.
      * eapply J. reflexivity.
Qed.

Lemma trace_attempts tid h : forall s L T,
  times_ok h -> (forall e o, (e, o) ∈ h -> T <= e_now e) ->
  win_inv tid (passes tid L) T (windows s) -> justified tid L ->
  exists T', win_inv tid (passes tid (L ++ all_attempts (trace h s))) T' (windows (run h s)) /\
  justified tid (L ++ all_attempts (trace h s)).
Proof.
  induction h as [|[e o] h IH]; intros s L T Ht HT I J; simpl.
  - unfold all_attempts; simpl. rewrite app_nil_r. exists T. auto.
  - destruct (step e o s) as [s' a] eqn:St. unfold times_ok in Ht. simpl in Ht. inversion Ht as [|? ? Ht' F]; subst.
    destruct (win_run_inv tid (e_now e) _ _ _ (step_win _ _ _ _ _ St) L) as [I' J'].
    { eapply win_inv_time; [exact I|]. eapply HT. left. }
    { exact J. }
    unfold all_attempts. simpl. rewrite app_assoc. eapply IH; [exact Ht'| |exact I'|exact J'].
    intros e' o' Hin. rewrite Forall_forall in F. apply F.
    apply elem_of_list_fmap. exists (e', o'). auto.
Qed.

Lemma rate_limit caller url_ok a s0 h tid :
  init caller url_ok a = Some s0 -> times_ok h ->
  (forall k p q, passes tid (all_attempts (trace h s0)) !! k = Some p ->
     passes tid (all_attempts (trace h s0)) !! (k + 5)%nat = Some q -> p + window_ns <= q) /\
  justified tid (all_attempts (trace h s0)).
Proof.
  intros Hi Ht. destruct (trace_attempts tid h s0 [] 0) as (T & (_ & _ & _ & K) & J); auto.
  - intros. lia.
  - destruct (init_last_id _ _ _ _ Hi) as (_ & _ & _ & _ & _ & _ & W & _). unfold passes; simpl.
    split; [constructor|]. split; [intros t X; apply elem_of_nil in X; contradiction|]. split.
    + exists []. rewrite W, lookup_empty. simpl. split; [reflexivity|]. intros t X; apply elem_of_nil in X; contradiction.
    + intros k p q H. rewrite lookup_nil in H. discriminate.
  - intros l1 l2 now H. destruct l1; discriminate.
Qed.
