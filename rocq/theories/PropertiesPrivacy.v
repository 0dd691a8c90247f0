(** C149: the work of the administrators on permissions and uploads cannot be seen by others. *)
From Verif Require Import Base ModelPrincipal ModelState ModelIcrc7 ModelIcrc37 ModelManagement ModelLifecycle
  ModelQueries ModelStep ProofsItems ProofsManage ProofsMicro Spec ProofsCore ProofsLock Scenario PropertiesManage.

(** The part of the ledger that is for everybody; the rest (permissions, uploads, storage canisters, redirections, the
    management lock and the calls that wait) is the office. *)
Definition public (s : state) :=
  (cfg s, tokens s, by_owner s, last_id s, tok_appr s, col_appr s, metas s, windows s, log s, lcalls s).

(** Calls (and replies, and upgrades) that concern the office. *)
Definition office (o : op) : bool :=
  match o with
  | OGrant _ _ | ORevokePerm _ _ | OInitUpload _ _ | OStoreChunk _ | OFinalize _ | OCancel _ | OReply _ _ | OUpgrade => true
  | _ => false
  end.

(** ** One message *)

(** [s] with the office of [x]. *)
Definition swap (x s : state) : state :=
  mkSt (cfg s) (perms x) (tokens s) (by_owner s) (last_id s) (redirs x) (subs x) (tok_appr s) (col_appr s) (metas s) (windows s)
    (guards x) (files x) (log s) (lcalls s) (pend x) (next_pend x).

Lemma swap_public s s' : public s = public s' -> s' = swap s' s.
Proof. unfold public, swap. destruct s, s'; cbn. intros [=]. subst. reflexivity. Qed.
Lemma public_swap x s : public (swap x s) = public s.
Proof. reflexivity. Qed.

(** [f] neither reads nor writes the office. *)
Definition apart {B} (f : state -> option (state * B)) : Prop :=
  forall x s, f (swap x s) = match f s with None => None | Some (s', r) => Some (swap x s', r) end.

Lemma guard_apart now t x s :
  guard_sliding_window now t (swap x s) =
    (swap x (fst (guard_sliding_window now t s)), snd (guard_sliding_window now t s)).
Proof. unfold guard_sliding_window. cbn. destruct (_ <=? _); reflexivity. Qed.

Lemma add_apart e t x s :
  add_transaction e t (swap x s) = (swap x (fst (add_transaction e t s)), snd (add_transaction e t s)).
Proof. unfold add_transaction. cbn. destruct (e_log _ _ _); reflexivity. Qed.

Lemma items_apart {A B} (f : state -> A -> option (state * B)) :
  (forall a, apart (fun s => f s a)) -> forall l, apart (fun s => run_items f s l).
Proof.
  intros F l x. induction l as [|a l IH]; intros s; [reflexivity|]. cbn. rewrite (F a x s).
  destruct (f s a) as [[s1 b]|]; [|reflexivity]. rewrite (IH s1). destruct (run_items f s1 l) as [[s2 bs]|]; reflexivity.
Qed.

Ltac go_g := match goal with
  | |- context [guard_sliding_window ?n ?t (swap ?x ?s)] => rewrite (guard_apart n t x s);
      destruct (guard_sliding_window n t s) as [? []]; cbn [fst snd negb]
  end.
Ltac go_a := match goal with
  | |- context [add_transaction ?e ?t (swap ?x ?s)] => rewrite (add_apart e t x s);
      destruct (add_transaction e t s) as [? []]; cbn [fst snd]
  end.

Lemma check_tok_apart now t sp x s :
  check_token_approval now t sp (swap x s) =
    (swap x (fst (check_token_approval now t sp s)), snd (check_token_approval now t sp s)).
Proof. unfold check_token_approval. cbn. repeat case_match; reflexivity. Qed.
Lemma check_col_apart now ow sp x s :
  check_collection_approval now ow sp (swap x s) =
    (swap x (fst (check_collection_approval now ow sp s)), snd (check_collection_approval now ow sp s)).
Proof. unfold check_collection_approval. cbn. repeat case_match; reflexivity. Qed.

Lemma transfer_apart e a : apart (fun s => transfer_nft e s a).
Proof.
  intros x s. unfold transfer_nft. go_g; [|reflexivity].
  change (tokens (swap x s0)) with (tokens s0). destruct (tokens s0 !! ta_tid a) as [nft|]; [|reflexivity].
  change (check_memo (swap x s0) (ta_memo a)) with (check_memo s0 (ta_memo a)).
  destruct (check_memo s0 (ta_memo a)) as [[]|]; [|reflexivity|reflexivity].
  destruct (_ || _); [reflexivity|]. change (cfg (swap x s0)) with (cfg s0).
  destruct (u64_setting _ _); [|reflexivity]. destruct (_ <? _); [reflexivity|].
  destruct (u64_setting _ _); [|reflexivity]. destruct (_ <? _); [reflexivity|]. go_a; reflexivity.
Qed.

Lemma approve_apart e a : apart (fun s => approve_token e s a).
Proof.
  intros x s. unfold approve_token. go_g; [|reflexivity].
  change (verify_approval_timing (swap x s0)) with (verify_approval_timing s0).
  destruct (verify_approval_timing _ _ _); [|reflexivity|reflexivity].
  change (owner_of (swap x s0)) with (owner_of s0). destruct (owner_of _ _); [|reflexivity].
  destruct (negb _); [reflexivity|]. destruct (acc_eqb _ _); [reflexivity|].
  change (tok_appr (swap x s0)) with (tok_appr s0). change (cfg (swap x s0)) with (cfg s0).
  destruct (match tok_appr s0 !! _ with Some _ => _ | None => _ end); [reflexivity|].
 go_a; try reflexivity. destruct (_ <? _); reflexivity.
Qed.

Lemma approve_coll_apart e a : apart (fun s => approve_collection e s a).
Proof.
  intros x s. unfold approve_collection. go_g; [|reflexivity].
  change (verify_approval_timing (swap x s0)) with (verify_approval_timing s0).
  destruct (verify_approval_timing _ _ _); [|reflexivity|reflexivity].
  destruct (acc_eqb _ _); [reflexivity|]. change (has_nfts (swap x s0)) with (has_nfts s0).
  destruct (negb _); [reflexivity|].
  change (col_appr (swap x s0)) with (col_appr s0). change (cfg (swap x s0)) with (cfg s0).
  destruct (match col_appr s0 !! _ with Some _ => _ | None => _ end); [reflexivity|].
  go_a; reflexivity.
Qed.

Lemma revoke_apart e a : apart (fun s => revoke_token_approvals e s a).
Proof.
  intros x s. unfold revoke_token_approvals.
  change (verify_opt_timing (swap x s)) with (verify_opt_timing s).
  destruct (verify_opt_timing _ _ _); [|reflexivity|reflexivity].
  change (owner_of (swap x s)) with (owner_of s). destruct (owner_of _ _); [|reflexivity].
  destruct (negb _); [reflexivity|]. change (tok_appr (swap x s)) with (tok_appr s).
  destruct (tok_appr s !! _); [|reflexivity]. go_a; reflexivity.
Qed.

Lemma revoke_coll_apart e a : apart (fun s => revoke_collection_approvals e s a).
Proof.
  intros x s. unfold revoke_collection_approvals. go_g; [|reflexivity].
  change (verify_opt_timing (swap x s0)) with (verify_opt_timing s0).
  destruct (verify_opt_timing _ _ _); [|reflexivity|reflexivity].
  change (col_appr (swap x s0)) with (col_appr s0).
  destruct (col_appr s0 !! _); [|reflexivity]. go_a; reflexivity.
Qed.

Lemma transfer_from_apart e a : apart (fun s => transfer_from e s a).
Proof.
  intros x s. unfold transfer_from. go_g; [|reflexivity].
  change (verify_opt_timing (swap x s0)) with (verify_opt_timing s0).
  destruct (verify_opt_timing _ _ _); [|reflexivity|reflexivity].
  change (tokens (swap x s0)) with (tokens s0). destruct (tokens s0 !! _) as [nft|]; [|reflexivity].
  destruct (acc_eqb _ _); [reflexivity|]. destruct (acc_eqb _ _); [reflexivity|].
  rewrite check_tok_apart. destruct (check_token_approval _ _ _ s0) as [s1 ht]. cbn [fst snd].
  rewrite check_col_apart. destruct (check_collection_approval _ _ _ s1) as [s2 hc]. cbn [fst snd].
  destruct (_ || _); [reflexivity|]. go_a; reflexivity.
Qed.

Lemma mint_log_apart e l x : forall id s,
  mint_log e id l (swap x s) = (swap x (fst (mint_log e id l s)), snd (mint_log e id l s)).
Proof.
  induction l as [|r l IH]; intros id s; [reflexivity|]. cbn [mint_log]. rewrite add_apart.
  destruct (add_transaction _ _ s) as [s1 []]; cbn [fst snd]; [apply IH|reflexivity..].
Qed.
Lemma mint_insert_apart l x : forall id s, mint_insert id l (swap x s) = swap x (mint_insert id l s).
Proof. induction l as [|r l IH]; intros id s; [reflexivity|]. cbn [mint_insert]. rewrite <- IH. reflexivity. Qed.
Lemma check_memos_apart l x s : check_memos (swap x s) l = check_memos s l.
Proof. induction l as [|r l IH]; [reflexivity|]. cbn [check_memos]. rewrite IH. reflexivity. Qed.

Lemma mint_apart e l : apart (mint_body e l).
Proof.
  intros x s. unfold mint_body. change (cfg (swap x s)) with (cfg s). change (tokens (swap x s)) with (tokens s).
  destruct (_ <? _); [reflexivity|]. destruct (_ <? _); [reflexivity|]. rewrite check_memos_apart.
  destruct (check_memos s l) as [[]|]; [|reflexivity|reflexivity].
  change (metas (swap x s)) with (metas s). change (last_id (swap x s)) with (last_id s).
  destruct (mint_metadata _ l (metas s)) as [m|]; [|reflexivity].
  change (set_metas m (swap x s)) with (swap x (set_metas m s)). rewrite mint_log_apart.
  destruct (mint_log _ _ l _) as [s2 [msg|]]; cbn [fst snd]; [reflexivity|].
  change (set_last_id (last_id s + nlen l) (swap x s2)) with (swap x (set_last_id (last_id s + nlen l) s2)).
  rewrite mint_insert_apart. reflexivity.
Qed.

Lemma update_apart e t kvs : apart (update_nft_metadata_body e t kvs).
Proof.
  intros x s. unfold update_nft_metadata_body. change (tokens (swap x s)) with (tokens s).
  destruct (tokens s !! t) as [tok|]; [|reflexivity]. change (metas (swap x s)) with (metas s).
  destruct (replace_metadata _ _ _) as [m|]; [|reflexivity].
  change (set_metas m (swap x s)) with (swap x (set_metas m s)). change (metas (swap x (set_metas m s))) with m.
  change (metas (set_metas m s)) with m. cbv zeta. go_a; reflexivity.
Qed.

Lemma burn_apart e t : apart (burn_body e t).
Proof.
  intros x s. unfold burn_body. change (tokens (swap x s)) with (tokens s).
  destruct (tokens s !! t) as [tok|]; [|reflexivity]. destruct (negb _); [reflexivity|]. go_a; reflexivity.
Qed.

Lemma cfg_apart u : apart (fun s1 => Some (set_cfg (apply_update u (cfg s1)) s1, @MOk unit tt)).
Proof. intros x s. reflexivity. Qed.

Lemma lock_apart {A} e (body : state -> option (state * mres A)) x s :
  commutes body -> apart body -> (guards s = ∅ <-> guards x = ∅) ->
  with_lock e (swap x s) body = match with_lock e s body with None => None | Some (s', r) => Some (swap x s', r) end.
Proof.
  intros C P G. rewrite !(with_lock_eq _ _ _ C). change (guards (swap x s)) with (guards x).
  destruct (decide (guards s = ∅)) as [E|E].
  - rewrite decide_True by (apply G; exact E). apply P.
  - rewrite decide_False by (intros X; apply E, G, X). reflexivity.
Qed.

Lemma permission_apart {A} q msg e (r r' : option (state * mres A)) x s :
  has_permission x (e_caller e) q = has_permission s (e_caller e) q ->
  r' = match r with None => None | Some (s', a) => Some (swap x s', a) end ->
  with_permission q msg e (swap x s) r' =
    match with_permission q msg e s r with None => None | Some (s', a) => Some (swap x s', a) end.
Proof.
  intros H ->. unfold with_permission. change (has_permission (swap x s)) with (has_permission x). rewrite H.
  destruct (has_permission s _ _); reflexivity.
Qed.

(** What does not concern the office depends on the office only through the permission and the lock it needs. *)
Lemma step_swap e o x s :
  office o = false ->
  (forall q, required o = Some q -> (holds s (e_caller e) q <-> holds x (e_caller e) q)) ->
  (exclusive o -> (guards s = ∅ <-> guards x = ∅)) ->
  step e o (swap x s) = (swap x (fst (step e o s)), snd (step e o s)).
Proof.
  intros O P G.
  assert (H : forall q, required o = Some q -> has_permission x (e_caller e) q = has_permission s (e_caller e) q).
  { intros q R. specialize (P q R). rewrite <- !holds_iff in P.
    destruct (has_permission x _ _), (has_permission s _ _); try reflexivity; exfalso; intuition discriminate. }
  destruct o; try discriminate O; cbn [step].
  - unfold icrc7_transfer. destruct args as [|a0 l]; [reflexivity|]. change (cfg (swap x s)) with (cfg s).
    destruct (usize_try _); [|reflexivity]. destruct (_ && _); [reflexivity|]. destruct (bool_decide _); [reflexivity|].
    rewrite (items_apart _ (transfer_apart e) _ x s). destruct (run_items _ _ _) as [[]|]; reflexivity.
  - unfold icrc37_approve_tokens. rewrite (items_apart _ (approve_apart e) _ x s). destruct (run_items _ _ _) as [[]|]; reflexivity.
  - unfold icrc37_approve_collection. rewrite (items_apart _ (approve_coll_apart e) _ x s). destruct (run_items _ _ _) as [[]|]; reflexivity.
  - unfold icrc37_revoke_token_approvals. destruct args as [|a0 l]; [reflexivity|]. go_g; [|reflexivity].
    change (cfg (swap x s0)) with (cfg s0).
    rewrite (items_apart _ (revoke_apart e) _ x s0). destruct (run_items _ _ _) as [[]|]; reflexivity.
  - unfold icrc37_revoke_collection_approvals. change (cfg (swap x s)) with (cfg s).
    rewrite (items_apart _ (revoke_coll_apart e) _ x s). destruct (run_items _ _ _) as [[]|]; reflexivity.
  - unfold icrc37_transfer_from. rewrite (items_apart _ (transfer_from_apart e) _ x s). destruct (run_items _ _ _) as [[]|]; reflexivity.
  - assert (G' : guards s = ∅ <-> guards x = ∅) by (apply G; left; cbn [required]; congruence).
    assert (K := lock_apart e _ x s (commutes_cfg u) (cfg_apart u) G').
    unfold update_collection_metadata.
    erewrite (permission_apart PUpdateCollectionMetadata _ e); [|apply H; reflexivity|exact K].
    destruct (with_permission _ _ _ _ _) as [[? [|[]|]]|]; reflexivity.
  - assert (G' : guards s = ∅ <-> guards x = ∅) by (apply G; left; cbn [required]; congruence).
    assert (K := lock_apart e _ x s (commutes_mint e reqs) (mint_apart e reqs) G').
    unfold mint. erewrite (permission_apart PMinting _ e); [|apply H; reflexivity|exact K].
    destruct (with_permission _ _ _ _ _) as [[? []]|]; reflexivity.
  - assert (G' : guards s = ∅ <-> guards x = ∅) by (apply G; left; cbn [required]; congruence).
    assert (K := lock_apart e _ x s (commutes_update e tid kvs) (update_apart e tid kvs) G').
    unfold update_nft_metadata. erewrite (permission_apart PUpdateMetadata _ e); [|apply H; reflexivity|exact K].
    destruct (with_permission _ _ _ _ _) as [[? []]|]; reflexivity.
  - unfold burn_nft.
    rewrite (lock_apart e _ x s (commutes_burn e tid) (burn_apart e tid) (G (or_intror (ex_intro _ tid eq_refl)))).
    destruct (with_lock _ _ _) as [[? [|[]|]]|]; reflexivity.
Qed.

(** Two ledgers that differ in the office only answer the same, and still differ in the office only, as long as their locks
    are held or free together and the caller has the permission for the call in both or in neither. *)
Theorem C149_step e o s s' :
  public s = public s' -> office o = false ->
  (forall q, required o = Some q -> (holds s (e_caller e) q <-> holds s' (e_caller e) q)) ->
  (exclusive o -> (guards s = ∅ <-> guards s' = ∅)) ->
  snd (step e o s) = snd (step e o s') /\ public (fst (step e o s)) = public (fst (step e o s')).
Proof.
  intros E O P G. rewrite (swap_public s s' E). rewrite step_swap; [|exact O|exact P|exact G]. auto.
Qed.
Print Assumptions C149_step.

(** Whoever holds no permission is told the same whatever they call, except through the lock. *)
Theorem C149_stranger e o s s' :
  public s = public s' -> (forall id r, o <> OReply id r) ->
  (forall q, ~ holds s (e_caller e) q) -> (forall q, ~ holds s' (e_caller e) q) ->
  ((exists t, o = OBurn t) -> (guards s = ∅ <-> guards s' = ∅)) ->
  snd (step e o s) = snd (step e o s') /\ public (fst (step e o s)) = public (fst (step e o s')).
Proof.
  intros E R P P' G. destruct (required o) as [q|] eqn:Rq.
  - assert (X : forall s, (forall q, ~ holds s (e_caller e) q) ->
      exists msg, step e o s = (s, AReject msg) /\ msg = ("Caller does not have " +:+ in_words q +:+ " permission")%string).
    { intros s1 H. eexists. split; [apply C33_names_permission; [exact Rq|apply H]|reflexivity]. }
    destruct (X s P) as (m & -> & ->). destruct (X s' P') as (m & -> & ->). auto.
  - destruct (office o) eqn:O.
    + destruct o; try discriminate O; try discriminate Rq.
      * destruct (R _ _ eq_refl).
      * cbn [step fst snd]. split; [reflexivity|]. rewrite !upgrade_eq. exact E.
    + apply C149_step; [exact E|exact O|congruence|]. intros [X|X]; [congruence|auto].
Qed.
Print Assumptions C149_stranger.

(** The work of the office leaves the rest alone. *)
Lemma first_public e s s1 r : first_result e s s1 r -> public s1 = public s.
Proof. intros H. destruct H; reflexivity. Qed.

Lemma entry_public e s first :
  (forall s s1 r, first s = (s1, r) -> first_result e s s1 r) -> public (fst (upload_entry e s first)) = public s.
Proof.
  intros F. unfold upload_entry. destruct (has_permission _ _ _); [|reflexivity].
  rewrite guard_new_spec. destruct (decide _); [|reflexivity].
  destruct (first _) as [s2 [er|p]] eqn:E; apply F, first_public in E; exact E.
Qed.

Lemma ans_upload_fst r : fst (ans_upload r) = fst r.
Proof. destruct r as [s [[|[]|]|]]; reflexivity. Qed.

Theorem C149_office_quiet e o s : office o = true -> public (fst (step e o s)) = public s.
Proof.
  intros O. destruct o; try discriminate O.
  - rewrite step_grant. destruct (has_permission _ _ _); [|reflexivity]. destruct (decide _); reflexivity.
  - rewrite step_revoke_perm. destruct (has_permission _ _ _); [|reflexivity]. destruct (decide _); reflexivity.
  - cbn [step]. rewrite ans_upload_fst. apply entry_public. intros. eapply init_first_inv; eauto.
  - cbn [step]. rewrite ans_upload_fst. apply entry_public. intros. eapply store_first_inv; eauto.
  - cbn [step]. rewrite ans_upload_fst. apply entry_public. intros. eapply finalize_first_inv; eauto.
  - cbn [step]. rewrite ans_upload_fst. apply entry_public. intros. eapply cancel_first_inv; eauto.
  - cbn [step]. unfold resume. destruct (pend s !! id) as [p|]; [|reflexivity]. destruct p, r; reflexivity.
  - cbn [step fst]. rewrite upgrade_eq. reflexivity.
Qed.
Print Assumptions C149_office_quiet.

(** ** Histories *)

(** The history without the work of the office, and the answers given to the other calls. *)
Definition purge (h : history) : history := List.filter (fun x => negb (office (snd x))) h.
Definition others_told (h : history) (s : state) : list answer :=
  map ev_ans (List.filter (fun ev => negb (office (ev_op ev))) (trace h s)).

(** No other management call came while the lock was held, and grants did not change what the other callers may do. *)
Definition undisturbed_by_office (s : state) (ev : event) : Prop :=
  office (ev_op ev) = false ->
  (exclusive (ev_op ev) -> guards (ev_before ev) = ∅) /\
  (forall q, required (ev_op ev) = Some q ->
     (holds (ev_before ev) (e_caller (ev_env ev)) q <-> holds s (e_caller (ev_env ev)) q)).

Lemma step_guards_free e o s : office o = false -> guards (fst (step e o s)) = guards s.
Proof.
  intros O. symmetry. apply (step_rel (fun _ => True) (fun a b => guards a = guards b)); auto; [congruence|].
  intros s1 s2 _ M. split; [exact Logic.I|]. micro_cases M; try reflexivity; try discriminate O.
  exfalso. repeat match goal with Q : _ \/ _ |- _ => destruct Q | Q : exists _, _ |- _ => destruct Q end; subst; discriminate O.
Qed.

Lemma purge_cons e o h : purge ((e, o) :: h) = if office o then purge h else (e, o) :: purge h.
Proof. unfold purge. cbn [List.filter snd]. destruct (office o); reflexivity. Qed.
Lemma told_cons e o h s s1 an : step e o s = (s1, an) ->
  others_told ((e, o) :: h) s = if office o then others_told h s1 else an :: others_told h s1.
Proof. intros S. unfold others_told. cbn [trace]. rewrite S. cbn [List.filter ev_op]. destruct (office o); reflexivity. Qed.

Lemma purge_run h : forall s s' sp,
  public s = public s' -> guards s' = ∅ -> (forall p q, holds s' p q <-> holds sp p q) ->
  Forall (undisturbed_by_office sp) (trace h s) ->
  public (run h s) = public (run (purge h) s') /\ others_told h s = map ev_ans (trace (purge h) s').
Proof.
  induction h as [|[e o] h IH]; intros s s' sp E G P F; [auto|]. cbn [trace] in F.
  destruct (step e o s) as [s1 an] eqn:S. inversion F as [|? ? U F']; subst. unfold undisturbed_by_office in U. cbn in U.
  rewrite purge_cons, (told_cons _ _ _ _ _ _ S). cbn [run]. rewrite S. cbn [fst].
  destruct (office o) eqn:O.
  - apply (IH s1 s' sp); [|exact G|exact P|exact F'].
    pose proof (C149_office_quiet e o s O) as X. rewrite S in X. cbn [fst] in X. congruence.
  - specialize (U eq_refl). destruct U as [U1 U2].
    destruct (C149_step e o s s' E O) as [A B].
    { intros q Rq. rewrite (U2 q Rq). symmetry. apply P. }
    { intros X. specialize (U1 X). tauto. }
    rewrite S in A, B. cbn [fst snd] in A, B. cbn [trace run map ev_ans].
    destruct (step e o s') as [s1' an'] eqn:S'. cbn [fst snd] in A, B |- *. subst an'.
    destruct (IH s1 s1' sp B) as [I1 I2]; [| |exact F'|].
    + pose proof (step_guards_free e o s' O) as X. rewrite S' in X. cbn [fst] in X. congruence.
    + intros p q. rewrite <- P. apply holds_same. assert (X : perms (fst (step e o s')) = perms s').
      { apply step_perms; intros; destruct o; try discriminate; discriminate O. }
      rewrite S' in X. exact X.
    + split; [exact I1|]. cbn [map ev_ans]. f_equal. exact I2.
Qed.

(** Whatever the office does: the public part and the answers of all other calls are those of the history without the office. *)
Theorem C149_purge_partial h s :
  guards s = ∅ -> Forall (undisturbed_by_office s) (trace h s) ->
  public (run h s) = public (run (purge h) s) /\ others_told h s = map ev_ans (trace (purge h) s).
Proof. intros G F. apply (purge_run h s s s); auto. Qed.
Print Assumptions C149_purge_partial.

(** Everything that anybody may read without a permission is in the public part. *)
Theorem C149_reads s s' :
  public s = public s' ->
  (forall ids, icrc7_owner_of s ids = icrc7_owner_of s' ids) /\
  (forall l, icrc7_balance_of s l = icrc7_balance_of s' l) /\
  (forall ids, icrc7_token_metadata s ids = icrc7_token_metadata s' ids) /\
  total_supply s = total_supply s' /\
  (forall prev tk, icrc7_tokens s prev tk = icrc7_tokens s' prev tk) /\
  (forall a prev tk, icrc7_tokens_of s a prev tk = icrc7_tokens_of s' a prev tk) /\
  (forall order t prev tk, icrc37_get_token_approvals order s t prev tk = icrc37_get_token_approvals order s' t prev tk) /\
  (forall order a prev tk, icrc37_get_collection_approvals order s a prev tk = icrc37_get_collection_approvals order s' a prev tk) /\
  (forall now l, icrc37_is_approved s now l = icrc37_is_approved s' now l) /\
  icrc7_collection_metadata s = icrc7_collection_metadata s' /\
  (icrc7_symbol s, icrc7_name s, icrc7_description s, icrc7_logo s, icrc7_supply_cap s, icrc7_max_query_batch_size s,
   icrc7_max_update_batch_size s, icrc7_default_take_value s, icrc7_max_take_value s, icrc7_max_memo_size s,
   icrc7_atomic_batch_transfers s, icrc7_tx_window s, icrc7_permitted_drift s, icrc37_max_approvals s, icrc37_max_revoke s) =
  (icrc7_symbol s', icrc7_name s', icrc7_description s', icrc7_logo s', icrc7_supply_cap s', icrc7_max_query_batch_size s',
   icrc7_max_update_batch_size s', icrc7_default_take_value s', icrc7_max_take_value s', icrc7_max_memo_size s',
   icrc7_atomic_batch_transfers s', icrc7_tx_window s', icrc7_permitted_drift s', icrc37_max_approvals s', icrc37_max_revoke s') /\
  log s = log s'.
Proof. intros E. rewrite (swap_public s s' E). repeat (split; [intros; reflexivity|]). reflexivity. Qed.
Print Assumptions C149_reads.

(** Full claim: an owner who holds no permission cannot tell whether the office is at work.  False: while an upload call waits,
    their burn is refused. *)
Theorem C149_busy_refuted :
  exists h e s, reachable s /\ guards s = ∅ /\ (forall q, ~ holds (run h s) (e_caller e) q) /\ Forall (fun x => office (snd x) = true) h /\
    public (run h s) = public s /\
    snd (step e (OBurn 1) s) = AOk /\ snd (step e (OBurn 1) (run h s)) = AErr EConcurrentManagementCall.
Proof.
  exists [(from_ admin 3000000001, OInitUpload "/x" 10)], (from_ alice 3000000002), demo2.
  split; [apply demo_reachable|]. split; [apply set_empty_size; vm_compute; reflexivity|].
  split; [intros q; apply holds_not_iff; destruct q; vm_compute; reflexivity|].
  split; [repeat constructor|]. split; [|split; vm_compute; reflexivity].
  cbn [run]. apply C149_office_quiet. reflexivity.
Qed.
Print Assumptions C149_busy_refuted.

Lemma undisturbed_check s ev :
  office (ev_op ev) ||
  match required (ev_op ev) with
  | Some q => (size (guards (ev_before ev)) =? 0)%nat &&
      Bool.eqb (has_permission (ev_before ev) (e_caller (ev_env ev)) q) (has_permission s (e_caller (ev_env ev)) q)
  | None => match ev_op ev with OBurn _ => (size (guards (ev_before ev)) =? 0)%nat | _ => true end
  end = true -> undisturbed_by_office s ev.
Proof.
  intros H O. rewrite O in H. cbn [orb] in H. destruct (required (ev_op ev)) as [q|] eqn:R.
  - apply andb_true_iff in H. destruct H as [H1 H2]. apply Nat.eqb_eq, set_empty_size in H1. apply Bool.eqb_prop in H2.
    split; [auto|]. intros q' [= <-]. rewrite <- !holds_iff, H2. reflexivity.
  - split; [|discriminate]. intros [X|[t X]]; [congruence|]. rewrite X in H. apply Nat.eqb_eq, set_empty_size in H. exact H.
Qed.

(** A grant, an upload, a transfer while it waits, its reply, and a burn afterwards: the owners see the transfer and the burn. *)
Definition office_h : history :=
  [(from_ admin 3000000001, OGrant carol PMinting); (from_ admin 3000000002, OInitUpload "/x" 10);
   (from_ alice 3000000003, OTransfer [xfer bob 2]); (from_ alice 3000000004, OReply 0 (RInitOk [7]));
   (from_ alice 3000000005, OBurn 1); (from_ bob 3000000006, OMint [])].

Example C149_example :
  reachable demo2 /\ guards demo2 = ∅ /\ Forall (undisturbed_by_office demo2) (trace office_h demo2) /\
  length (purge office_h) = 3%nat /\ others_told office_h demo2 = [ABatch [Ok 5]; AOk; AReject "Caller does not have minting permission"] /\
  files (run office_h demo2) <> files demo2 /\ ~ holds demo2 carol PMinting /\ holds (run office_h demo2) carol PMinting.
Proof.
  split; [apply demo_reachable|]. split; [apply set_empty_size; vm_compute; reflexivity|]. split.
  - apply Forall_forall. intros ev H. apply undisturbed_check. apply elem_of_list_In in H. revert ev H.
    apply (proj1 (forallb_forall _ _)). vm_compute. reflexivity.
  - split; [vm_compute; reflexivity|]. split; [vm_compute; reflexivity|]. split; [vm_compute; discriminate|].
    split; [apply holds_not_iff|apply holds_iff]; vm_compute; reflexivity.
Qed.

(** Two ledgers with the same public part: one of them has an upload waiting and another minter. *)
Example C149_example_two :
  let s' := run (take 2 office_h) demo2 in
  public demo2 = public s' /\ perms demo2 <> perms s' /\ guards s' <> ∅ /\
  (forall q, ~ holds demo2 alice q) /\ (forall q, ~ holds s' alice q) /\
  snd (step (from_ alice 3000000003) (OTransfer [xfer bob 2]) s') = ABatch [Ok 5].
Proof.
  cbv zeta. split.
  - change (take 2 office_h) with [(from_ admin 3000000001, OGrant carol PMinting); (from_ admin 3000000002, OInitUpload "/x" 10)].
    cbn [run]. rewrite !C149_office_quiet by reflexivity. reflexivity.
  - split; [vm_compute; discriminate|]. split; [apply set_not_empty_size; vm_compute; discriminate|].
    split; [intros q; apply holds_not_iff; destruct q; vm_compute; reflexivity|].
    split; [intros q; apply holds_not_iff; destruct q; vm_compute; reflexivity|]. vm_compute. reflexivity.
Qed.
