(** C159: a refused call might as well not have been made. *)
From Verif Require Import Base ModelPrincipal ModelState ModelIcrc7 ModelIcrc37 ModelManagement ModelLifecycle
  ModelQueries ModelStep ProofsItems ProofsManage ProofsMicro ProofsRate Spec ProofsCore ProofsLock Scenario PropertiesManage PropertiesPrivacy
  PropertiesMirror PropertiesApprovals PropertiesMeta PropertiesForce.

(** The ledger with an idle rate limiter. *)
Definition idle (s : state) : state := set_windows ∅ s.

(** Two ledgers that differ at most in what the rate limiter remembers and in approvals that have expired at [now]. *)
Definition near (now : N) (s s' : state) : Prop := same_force now (idle s) (idle s').

(** The call was refused, with nothing of it carried out.  (The refusal of an upload call whose storage canister is unknown says
    itself that the upload is cancelled.) *)
Definition refused (o : op) (a : answer) : Prop :=
  (forall id r, o <> OReply id r) /\
  match a with
  | ATrap | AReject _ => True
  | AErr er => er <> EStorageCanisterError "Storage canister not found. Cancelling the upload."
  | ABatch l => Forall (fun r => exists er, r = Err er) l
  | _ => False
  end.

(** Neither the rate limiter nor the limit of approvals stood in the way of any part of the call, as far as the answer tells. *)
Definition unhampered (o : op) (a : answer) : Prop :=
  match a with
  | ABatch l => Forall (fun r => limited r = false /\ forall er, r = Err er -> ~ too_many er) l
  | AErr er => limited (Err er) = false
  | ATrap => (forall l, o <> OTransfer l) /\ (forall l, o <> OApproveTokens l)
  | _ => True
  end.

(** The log takes every block. *)
Definition taking (e : env) : Prop := forall k t, exists i, e_log e k t = LOk i.

(** ** An idle rate limiter *)

Lemma same_force_refl now s : same_force now s s.
Proof. split; [reflexivity|]. split; intros k; apply force_opt_refl. Qed.
Lemma near_refl now s : near now s s.
Proof. apply same_force_refl. Qed.
Lemma same_force_sym now s s' : same_force now s s' -> same_force now s' s.
Proof.
  intros (R & T & C). split; [symmetry; exact R|].
  split; intros k; [specialize (T k)|specialize (C k)]; unfold force_opt in *; repeat case_match; try tauto; apply force_sym; assumption.
Qed.
Lemma same_force_trans now s1 s2 s3 : same_force now s1 s2 -> same_force now s2 s3 -> same_force now s1 s3.
Proof.
  intros (R & T & C) F. apply same_force_sym in F. assert (G := same_force_refl now s2).
  destruct F as (R' & T' & C'). split; [etransitivity; [exact R|symmetry; exact R']|]. split; intros k.
  - specialize (T k). specialize (T' k). unfold force_opt in *. repeat case_match; try tauto. eapply force_trans; [exact T|apply force_sym, T'].
  - specialize (C k). specialize (C' k). unfold force_opt in *. repeat case_match; try tauto. eapply force_trans; [exact C|apply force_sym, C'].
Qed.
Lemma same_force_near now s s' : same_force now s s' -> near now s s'.
Proof.
  intros (t & c & -> & T & C)%same_force_put. apply same_force_put. exists t, c. split; [reflexivity|]. split; assumption.
Qed.
Lemma idle_near now s s' : idle s = idle s' -> near now s s'.
Proof. unfold near. intros ->. apply same_force_refl. Qed.
Lemma near_trans now s1 s2 s3 : near now s1 s2 -> near now s2 s3 -> near now s1 s3.
Proof. apply same_force_trans. Qed.
Lemma near_sym now s s' : near now s s' -> near now s' s.
Proof. apply same_force_sym. Qed.
Lemma near_later now now' s s' : now <= now' -> near now s s' -> near now' s s'.
Proof. apply same_force_later. Qed.

Lemma guard_idle now t s :
  exists w, guard_sliding_window now t (idle s) = (set_windows w s, true).
Proof. unfold guard_sliding_window. cbn. eexists. rewrite lookup_empty. cbn. reflexivity. Qed.
Lemma guard_any now t s : exists w, fst (guard_sliding_window now t s) = set_windows w s.
Proof. unfold guard_sliding_window. cbn. destruct (_ <=? _); eexists; reflexivity. Qed.
Lemma msg_limited now t s : limited (Err (EGeneric 0 (rate_limit_msg now t s))) = true.
Proof. reflexivity. Qed.

Lemma add_win w e x s : add_transaction e x (set_windows w s) = (set_windows w (fst (add_transaction e x s)), snd (add_transaction e x s)).
Proof. unfold add_transaction. cbn. destruct (e_log _ _ _); reflexivity. Qed.
Lemma check_tok_win w now t sp s :
  check_token_approval now t sp (set_windows w s) =
    (set_windows w (fst (check_token_approval now t sp s)), snd (check_token_approval now t sp s)).
Proof. unfold check_token_approval. cbn. repeat case_match; reflexivity. Qed.
Lemma check_col_win w now ow sp s :
  check_collection_approval now ow sp (set_windows w s) =
    (set_windows w (fst (check_collection_approval now ow sp s)), snd (check_collection_approval now ow sp s)).
Proof. unfold check_collection_approval. cbn. repeat case_match; reflexivity. Qed.

(** [f] does for an idle rate limiter what it does, unless the limiter refuses. *)
Definition loose {A} (f : state -> A -> option (state * res N)) : Prop :=
  forall s a, match f s a with
    | Some (s1, r) => limited r = true \/ exists s2, f (idle s) a = Some (s2, r) /\ idle s2 = idle s1
    | None => True
    end.

Ltac eased now t s :=
  let w := fresh "w" in let w' := fresh "w" in let E := fresh "E" in let E' := fresh "E" in
  destruct (guard_idle now t s) as [w E]; rewrite E; clear E;
  destruct (guard_any now t s) as [w' E']; destruct (guard_sliding_window now t s) as [?s0 pass]; cbn [fst] in E'; subst;
  destruct pass; cbn [negb]; [|left; apply msg_limited].
Ltac same := right; eexists; split; [reflexivity|reflexivity].

Lemma transfer_loose e : loose (transfer_nft e).
Proof.
  intros s a. unfold transfer_nft. eased (e_now e) (ta_tid a) s. cbn [cfg tokens set_windows].
  destruct (tokens s !! ta_tid a) as [nft|]; [|same].
  change (check_memo (set_windows w s)) with (check_memo s). change (check_memo (set_windows w0 s)) with (check_memo s).
  destruct (check_memo s _) as [[]|]; [|same|exact Logic.I]. destruct (_ || _); [same|].
  destruct (u64_setting (c_drift _) _) as [dr|]; [|exact Logic.I]. destruct (_ <? _); [same|].
  destruct (u64_setting (c_tx_window _) _) as [wi|]; [|exact Logic.I]. destruct (default _ _ <? _); [same|].
  rewrite !add_win. destruct (add_transaction _ _ s) as [s2 []]; same.
Qed.
Lemma approve_loose e : loose (approve_token e).
Proof.
  intros s a. unfold approve_token. eased (e_now e) (ap_tid a) s.
  change (verify_approval_timing (set_windows w s)) with (verify_approval_timing s).
  change (verify_approval_timing (set_windows w0 s)) with (verify_approval_timing s).
  destruct (verify_approval_timing s _ _); [|same|same].
  change (owner_of (set_windows w s)) with (owner_of s). change (owner_of (set_windows w0 s)) with (owner_of s).
  destruct (owner_of s _) as [ow|]; [|same]. destruct (negb _); [same|]. destruct (acc_eqb _ anonymous_account); [same|].
  cbn [cfg tok_appr set_windows]. destruct (match tok_appr s !! _ with Some _ => _ | None => _ end); [same|].
  rewrite !add_win. destruct (add_transaction _ _ s) as [s2 []]; cbn [fst snd]; try same. destruct (_ <? _); [same|exact Logic.I].
Qed.
Lemma approve_coll_loose e : loose (approve_collection e).
Proof.
  intros s a. unfold approve_collection. eased (e_now e) 0 s.
  change (verify_approval_timing (set_windows w s)) with (verify_approval_timing s).
  change (verify_approval_timing (set_windows w0 s)) with (verify_approval_timing s).
  destruct (verify_approval_timing s _ _); [|same|same]. destruct (acc_eqb _ anonymous_account); [same|].
  change (has_nfts (set_windows w s)) with (has_nfts s). change (has_nfts (set_windows w0 s)) with (has_nfts s).
  destruct (negb _); [same|]. cbn [cfg col_appr set_windows]. destruct (match col_appr s !! _ with Some _ => _ | None => _ end); [same|].
  rewrite !add_win. destruct (add_transaction _ _ s) as [s2 []]; same.
Qed.
Lemma revoke_win e w s a :
  revoke_token_approvals e (set_windows w s) a =
    match revoke_token_approvals e s a with Some (s1, r) => Some (set_windows w s1, r) | None => None end.
Proof.
  unfold revoke_token_approvals. change (verify_opt_timing (set_windows w s)) with (verify_opt_timing s).
  destruct (verify_opt_timing s _ _); try reflexivity. change (owner_of (set_windows w s)) with (owner_of s).
  destruct (owner_of s _) as [ow|]; [|reflexivity]. destruct (negb _); [reflexivity|]. cbn [tok_appr set_windows].
  destruct (tok_appr s !! _) as [m|]; [|reflexivity]. rewrite add_win. destruct (add_transaction _ _ s) as [s2 []]; reflexivity.
Qed.
Lemma revoke_loose e : loose (revoke_token_approvals e).
Proof.
  intros s a. unfold idle at 1. rewrite (revoke_win e ∅). destruct (revoke_token_approvals e s a) as [[s1 r]|]; [|exact Logic.I].
  right. eexists. split; reflexivity.
Qed.
Lemma revoke_coll_loose e : loose (revoke_collection_approvals e).
Proof.
  intros s a. unfold revoke_collection_approvals. eased (e_now e) 0 s.
  change (verify_opt_timing (set_windows w s)) with (verify_opt_timing s).
  change (verify_opt_timing (set_windows w0 s)) with (verify_opt_timing s).
  destruct (verify_opt_timing s _ _); [|same|same]. cbn [col_appr set_windows]. destruct (col_appr s !! _) as [m|]; [|same].
  rewrite !add_win. destruct (add_transaction _ _ s) as [s2 []]; same.
Qed.
Lemma from_loose e : loose (transfer_from e).
Proof.
  intros s a. unfold transfer_from. eased (e_now e) (tf_tid a) s.
  change (verify_opt_timing (set_windows w s)) with (verify_opt_timing s).
  change (verify_opt_timing (set_windows w0 s)) with (verify_opt_timing s).
  destruct (verify_opt_timing s _ _); [|same|same]. cbn [tokens set_windows]. destruct (tokens s !! _) as [nft|]; [|same].
  destruct (acc_eqb (tf_from a) _); [same|]. destruct (acc_eqb _ anonymous_account); [same|].
  rewrite !check_tok_win. destruct (check_token_approval _ _ _ s) as [s1 ht]. cbn [fst snd].
  rewrite !check_col_win. destruct (check_collection_approval _ _ _ s1) as [s2 hc]. cbn [fst snd].
  destruct (_ || _); [same|]. rewrite !add_win. destruct (add_transaction _ _ s2) as [s3 []]; same.
Qed.

(** ** Items *)

Lemma transfer_keeps e : keeps (e_now e) (transfer_nft e).
Proof.
  intros s s' a (t & c & -> & T & C)%same_force_put. destruct (transfer_blind e a t c s) as [-> X].
  destruct (transfer_nft e s a) as [[s1 r]|]; [|exact Logic.I]. destruct X as [E1 E2]. right. split; [reflexivity|].
  apply same_force_put. exists t, c. rewrite E1, E2. split; [reflexivity|]. split; assumption.
Qed.

(** No part was refused by the limiter or for the number of approvals. *)
Definition unhampered_items (rs : list (res N)) : Prop := Forall (fun r => limited r = false /\ forall er, r = Err er -> ~ too_many er) rs.

Lemma items_near {A} now (f : state -> A -> option (state * res N)) :
  keeps now f -> loose f -> forall l s s' s1 s1' rs rs', near now s s' ->
    run_items f s l = Some (s1, rs) -> run_items f s' l = Some (s1', rs') -> unhampered_items rs -> unhampered_items rs' ->
    rs = rs' /\ near now s1 s1'.
Proof.
  intros K L l. induction l as [|a l IH]; intros s s' s1 s1' rs rs' F H H' R R'; cbn in H, H'.
  { injection H as <- <-. injection H' as <- <-. split; [reflexivity|exact F]. }
  assert (X := K (idle s) (idle s') a F). assert (Y := L s a). assert (Y' := L s' a).
  destruct (f s a) as [[s2 r]|]; [|discriminate]. destruct (f s' a) as [[s2' r']|]; [|discriminate].
  destruct (run_items f s2 l) as [[s3 ts]|] eqn:E; [|discriminate]. destruct (run_items f s2' l) as [[s3' ts']|] eqn:E'; [|discriminate].
  injection H as <- <-. injection H' as <- <-. apply Forall_cons_1 in R as [[R1 R2] R3]. apply Forall_cons_1 in R' as [[R1' R2'] R3'].
  destruct Y as [Y|(z & Z & I)]; [congruence|]. destruct Y' as [Y'|(z' & Z' & I')]; [congruence|]. rewrite Z, Z' in X.
  destruct X as [(er & [->| ->] & TM)|[-> F1]]; [destruct (R2 er eq_refl TM)|destruct (R2' er eq_refl TM)|].
  assert (G : near now s2 s2') by (apply same_force_near in F1; unfold near in *; rewrite <- I, <- I'; exact F1).
  destruct (IH _ _ _ _ _ _ G E E' R3 R3') as [-> F2]. split; [reflexivity|exact F2].
Qed.

(** ** The other calls *)

(** Calls that the rate limiter does not look at. *)
Definition free_call (o : op) : bool :=
  match o with
  | OTransfer _ | OApproveTokens _ | OApproveCollection _ | ORevokeTokens _ | ORevokeCollection _ | OTransferFrom _ => false
  | _ => true
  end.

Lemma mint_log_win w e l : forall id s, mint_log e id l (set_windows w s) = (set_windows w (fst (mint_log e id l s)), snd (mint_log e id l s)).
Proof.
  induction l as [|r l IH]; intros id s; [reflexivity|]. cbn [mint_log]. rewrite add_win.
  destruct (add_transaction _ _ s) as [s1 []]; cbn [fst snd]; [apply IH|reflexivity..].
Qed.
Lemma mint_insert_win w l : forall id s, mint_insert id l (set_windows w s) = set_windows w (mint_insert id l s).
Proof. induction l as [|r l IH]; intros id s; [reflexivity|]. cbn [mint_insert]. rewrite <- IH. reflexivity. Qed.
Lemma memos_win w s l : check_memos (set_windows w s) l = check_memos s l.
Proof. induction l as [|r l IH]; [reflexivity|]. cbn [check_memos]. rewrite IH. reflexivity. Qed.
Lemma mint_win w e l s :
  mint_body e l (set_windows w s) = match mint_body e l s with Some (s1, r) => Some (set_windows w s1, r) | None => None end.
Proof.
  unfold mint_body. change (cfg (set_windows w s)) with (cfg s).
  destruct (_ <? _); [reflexivity|]. change (tokens (set_windows w s)) with (tokens s). destruct (_ <? _); [reflexivity|]. rewrite memos_win.
  destruct (check_memos s l) as [[]|]; try reflexivity.
  change (metas (set_windows w s)) with (metas s). change (last_id (set_windows w s)) with (last_id s).
  destruct (mint_metadata _ l _) as [m|]; [|reflexivity].
  change (set_metas m (set_windows w s)) with (set_windows w (set_metas m s)). rewrite mint_log_win.
  destruct (mint_log _ _ l (set_metas m s)) as [s2 [msg|]]; cbn [fst snd]; [reflexivity|].
  change (set_last_id ?x (set_windows w s2)) with (set_windows w (set_last_id x s2)). rewrite mint_insert_win. reflexivity.
Qed.
Lemma entry_win w e s first :
  (forall z, first (set_windows w z) = (set_windows w (fst (first z)), snd (first z))) ->
  ans_upload (upload_entry e (set_windows w s) first) =
    (set_windows w (fst (ans_upload (upload_entry e s first))), snd (ans_upload (upload_entry e s first))).
Proof.
  intros F. unfold upload_entry. change (has_permission (set_windows w s)) with (has_permission s). destruct (has_permission _ _ _); [|reflexivity].
  rewrite !guard_new_spec. change (guards (set_windows w s)) with (guards s). destruct (decide _); [|reflexivity].
  change (set_guards {[e_caller e]} (set_windows w s)) with (set_windows w (set_guards {[e_caller e]} s)).
  rewrite F. destruct (first _) as [s2 [er|p]]; reflexivity.
Qed.

Lemma step_win e o w s : free_call o = true -> step e o (set_windows w s) = (set_windows w (fst (step e o s)), snd (step e o s)).
Proof.
  intros F. destruct o; try discriminate F.
  - cbn [step]. unfold update_collection_metadata, with_permission. change (has_permission (set_windows w s)) with (has_permission s).
    destruct (has_permission _ _ _); [|reflexivity]. rewrite !(with_lock_eq _ _ _ (commutes_cfg u)).
    change (guards (set_windows w s)) with (guards s). destruct (decide _); reflexivity.
  - cbn [step]. unfold mint, with_permission. change (has_permission (set_windows w s)) with (has_permission s).
    destruct (has_permission _ _ _); [|reflexivity]. rewrite !(with_lock_eq _ _ _ (commutes_mint e reqs)).
    change (guards (set_windows w s)) with (guards s). destruct (decide _); [|reflexivity]. rewrite mint_win.
    destruct (mint_body _ _ _) as [[? []]|]; reflexivity.
  - cbn [step]. unfold update_nft_metadata, with_permission. change (has_permission (set_windows w s)) with (has_permission s).
    destruct (has_permission _ _ _); [|reflexivity]. rewrite !(with_lock_eq _ _ _ (commutes_update e tid kvs)).
    change (guards (set_windows w s)) with (guards s). destruct (decide _); [|reflexivity].
    unfold update_nft_metadata_body. change (tokens (set_windows w s)) with (tokens s).
    destruct (tokens s !! tid) as [tok|]; [|reflexivity]. change (metas (set_windows w s)) with (metas s).
    destruct (replace_metadata _ _ _) as [m|]; [|reflexivity]. cbv zeta.
    change (set_metas m (set_windows w s)) with (set_windows w (set_metas m s)). change (metas (set_windows w (set_metas m s))) with m.
    change (metas (set_metas m s)) with m. rewrite add_win.
    destruct (add_transaction _ _ (set_metas m s)) as [s1 []]; reflexivity.
  - cbn [step]. unfold burn_nft. rewrite !(with_lock_eq _ _ _ (commutes_burn e tid)).
    change (guards (set_windows w s)) with (guards s). destruct (decide _); [|reflexivity].
    unfold burn_body. change (tokens (set_windows w s)) with (tokens s).
    destruct (tokens s !! tid) as [tok|]; [|reflexivity]. destruct (negb _); [reflexivity|]. rewrite add_win.
    destruct (add_transaction _ _ s) as [s1 []]; reflexivity.
  - rewrite !step_grant. change (has_permission (set_windows w s)) with (has_permission s). change (guards (set_windows w s)) with (guards s).
    destruct (has_permission _ _ _); [|reflexivity]. destruct (decide _); reflexivity.
  - rewrite !step_revoke_perm. change (has_permission (set_windows w s)) with (has_permission s). change (guards (set_windows w s)) with (guards s).
    destruct (has_permission _ _ _); [|reflexivity]. destruct (decide _); reflexivity.
  - apply entry_win. intros z. unfold init_upload_first. change (contains_path (set_windows w z)) with (contains_path z).
    destruct (contains_path z path); [reflexivity|]. destruct (_ <? _); reflexivity.
  - apply entry_win. intros z. unfold store_chunk_first. change (files (set_windows w z)) with (files z). change (subs (set_windows w z)) with (subs z).
    destruct (files z !! path) as [u|]; [|reflexivity]. destruct (u_state u); try destruct (bool_decide _); reflexivity.
  - apply entry_win. intros z. unfold finalize_upload_first. change (files (set_windows w z)) with (files z). change (subs (set_windows w z)) with (subs z).
    destruct (files z !! path) as [u|]; [|reflexivity]. destruct (u_state u); try destruct (bool_decide _); reflexivity.
  - apply entry_win. intros z. unfold cancel_upload_first. change (files (set_windows w z)) with (files z). change (subs (set_windows w z)) with (subs z).
    destruct (files z !! path) as [u|]; [|reflexivity]. destruct (u_state u); try destruct (bool_decide _); reflexivity.
  - cbn [step]. unfold resume. change (pend (set_windows w s)) with (pend s). destruct (pend s !! id) as [p|]; [|reflexivity].
    destruct p, r; reflexivity.
  - cbn [step fst snd]. rewrite !upgrade_eq. reflexivity.
Qed.

(** ** One message *)

(** Two ledgers that differ only in what the rate limiter remembers and in expired approvals treat a call alike, unless the limiter or
    the limit of approvals stands in its way. *)
Theorem C159_step e o now s s' :
  now <= e_now e -> near now s s' -> unhampered o (snd (step e o s)) -> unhampered o (snd (step e o s')) ->
  snd (step e o s) = snd (step e o s') /\ near (e_now e) (fst (step e o s)) (fst (step e o s')).
Proof.
  intros L F N N'. apply (near_later _ _ _ _ L) in F. clear L now.
  destruct (free_call o) eqn:O.
  { assert (C : forall z, snd (step e o z) = snd (step e o (idle z)) /\ fst (step e o (idle z)) = idle (fst (step e o z))).
    { intros z. unfold idle. rewrite (step_win e o ∅ z O). split; reflexivity. }
    destruct (C s) as [A1 S1], (C s') as [A2 S2]. rewrite A1, A2. unfold near. rewrite <- S1, <- S2.
    apply (C158_step e o (e_now e)); [lia|exact F|..].
    - rewrite <- A1. unfold not_crowded, unhampered in *. destruct (snd (step e o s)); try exact Logic.I; [apply N|].
      eapply Forall_impl; [exact N|]. intros r [_ X]. exact X.
    - rewrite <- A2. unfold not_crowded, unhampered in *. destruct (snd (step e o s')); try exact Logic.I; [apply N'|].
      eapply Forall_impl; [exact N'|]. intros r [_ X]. exact X. }
  assert (Ec : cfg s' = cfg s) by exact (proj1 (rest_eq _ _ _ F)).
  destruct o; try discriminate O; cbn [step] in *.
  - unfold icrc7_transfer in *. destruct args as [|a0 l0]; [split; [reflexivity|exact F]|]. set (l := a0 :: l0) in *. rewrite Ec in *.
    destruct (usize_try _) as [mx|]; [|split; [reflexivity|exact F]]. destruct (_ && _); [split; [reflexivity|exact F]|].
    destruct (bool_decide _); [split; [reflexivity|exact F]|].
    destruct (run_items _ s _) as [[s1 rs]|] eqn:E; [|destruct N as [N _]; destruct (N l eq_refl)].
    destruct (run_items _ s' _) as [[s1' rs']|] eqn:E'; [|destruct N' as [N' _]; destruct (N' l eq_refl)]. cbn [ans_batch fst snd unhampered] in *.
    destruct (items_near _ _ (transfer_keeps e) (transfer_loose e) _ _ _ _ _ _ _ F E E' N N') as [-> F1]. split; [reflexivity|exact F1].
  - unfold icrc37_approve_tokens in *.
    destruct (run_items _ s _) as [[s1 rs]|] eqn:E; [|destruct N as [_ N]; destruct (N args eq_refl)].
    destruct (run_items _ s' _) as [[s1' rs']|] eqn:E'; [|destruct N' as [_ N']; destruct (N' args eq_refl)]. cbn [ans_batch fst snd unhampered] in *.
    destruct (items_near _ _ (approve_keeps e) (approve_loose e) _ _ _ _ _ _ _ F E E' N N') as [-> F1]. split; [reflexivity|exact F1].
  - unfold icrc37_approve_collection in *.
    destruct (total_items _ (approve_coll_total e) args s) as (s1 & rs & E), (total_items _ (approve_coll_total e) args s') as (s1' & rs' & E').
    rewrite E in *. rewrite E' in *. cbn [ans_batch fst snd unhampered] in *.
    destruct (items_near _ _ (approve_coll_keeps e) (approve_coll_loose e) _ _ _ _ _ _ _ F E E' N N') as [-> F1]. split; [reflexivity|exact F1].
  - unfold icrc37_revoke_token_approvals in *. destruct args as [|a0 l0]; [split; [reflexivity|exact F]|].
    destruct (guard_any (e_now e) (rv_tid a0) s) as [w G], (guard_any (e_now e) (rv_tid a0) s') as [w' G'].
    destruct (guard_sliding_window _ _ s) as [s0 []], (guard_sliding_window _ _ s') as [s0' []]; cbn [fst snd negb] in *; subst;
      try (cbn [unhampered] in N; rewrite msg_limited in N; discriminate N); try (cbn [unhampered] in N'; rewrite msg_limited in N'; discriminate N').
    assert (F0 : near (e_now e) (set_windows w s) (set_windows w' s')) by exact F. cbn [cfg set_windows] in *. rewrite Ec in *. set (l := take_n _ _) in *.
    destruct (total_items _ (revoke_total e) l (set_windows w s)) as (s1 & rs & E1), (total_items _ (revoke_total e) l (set_windows w' s')) as (s1' & rs' & E1').
    rewrite E1 in *. rewrite E1' in *. cbn [ans_batch fst snd unhampered] in *.
    destruct (items_near _ _ (revoke_keeps e) (revoke_loose e) _ _ _ _ _ _ _ F0 E1 E1' N N') as [-> F1]. split; [reflexivity|exact F1].
  - unfold icrc37_revoke_collection_approvals in *. rewrite Ec in *. set (l := take_n _ _) in *.
    destruct (total_items _ (revoke_coll_total e) l s) as (s1 & rs & E), (total_items _ (revoke_coll_total e) l s') as (s1' & rs' & E').
    rewrite E in *. rewrite E' in *. cbn [ans_batch fst snd unhampered] in *.
    destruct (items_near _ _ (revoke_coll_keeps e) (revoke_coll_loose e) _ _ _ _ _ _ _ F E E' N N') as [-> F1]. split; [reflexivity|exact F1].
  - unfold icrc37_transfer_from in *.
    destruct (total_items _ (from_total e) args s) as (s1 & rs & E), (total_items _ (from_total e) args s') as (s1' & rs' & E').
    rewrite E in *. rewrite E' in *. cbn [ans_batch fst snd unhampered] in *.
    destruct (items_near _ _ (from_keeps e) (from_loose e) _ _ _ _ _ _ _ F E E' N N') as [-> F1]. split; [reflexivity|exact F1].
Qed.
Print Assumptions C159_step.

(** ** What a refused call leaves behind *)

(** [f] leaves nothing behind when it refuses. *)
Definition fades {A} (now : N) (f : state -> A -> option (state * res N)) : Prop :=
  forall s a s1 er, f s a = Some (s1, Err er) -> near now s s1.

Lemma add_taking e x s : taking e -> exists i, snd (add_transaction e x s) = LOk i.
Proof. intros T. unfold add_transaction. destruct (T (lcalls s) x) as [i E]. exists i. rewrite E. reflexivity. Qed.
Lemma win_near now w s : near now s (set_windows w s).
Proof. apply idle_near. reflexivity. Qed.
Lemma check_tok_near now tid sp s : near now s (fst (check_token_approval now tid sp s)).
Proof.
  unfold check_token_approval. destruct (tok_appr s !! tid) as [m|] eqn:E; [|apply near_refl].
  destruct (m !! akey sp) as [[k ap]|] eqn:Em; [|apply near_refl]. destruct (a_expires ap) as [x|] eqn:Ex; [|apply near_refl].
  destruct (x <=? now) eqn:L; [|apply near_refl]. apply same_force_near. split; [reflexivity|]. split; [|intros k'; apply force_opt_refl].
  intros j. cbn [fst tok_appr set_tok_appr]. destruct (decide (tid = j)) as [<-|]; [|rewrite lookup_insert_ne by assumption; apply force_opt_refl].
  rewrite lookup_insert, E. cbn. apply force_drop. rewrite Em. cbn. rewrite Ex, L. reflexivity.
Qed.
Lemma check_col_near now ow sp s : near now s (fst (check_collection_approval now ow sp s)).
Proof.
  unfold check_collection_approval. destruct (col_appr s !! akey ow) as [m|] eqn:E; [|apply near_refl].
  destruct (m !! akey sp) as [[k ap]|] eqn:Em; [|apply near_refl]. destruct (a_expires ap) as [x|] eqn:Ex; [|apply near_refl].
  destruct (x <=? now) eqn:L; [|apply near_refl]. apply same_force_near. split; [reflexivity|]. split; [intros k'; apply force_opt_refl|].
  intros j. cbn [fst col_appr set_col_appr]. destruct (decide (akey ow = j)) as [<-|]; [|rewrite lookup_insert_ne by assumption; apply force_opt_refl].
  rewrite lookup_insert, E. cbn. apply force_drop. rewrite Em. cbn. rewrite Ex, L. reflexivity.
Qed.

Ltac limiter now t s :=
  let w := fresh "w" in let E := fresh "E" in
  destruct (guard_any now t s) as [w E]; destruct (guard_sliding_window now t s) as [?s0 pass]; cbn [fst] in E; subst.
Ltac left_alone := let H := fresh in intros H; injection H as <- <-; apply win_near.
Ltac taken T e x s := let i := fresh "i" in let E := fresh "E" in
  destruct (add_taking e x s T) as [i E]; destruct (add_transaction e x s) as [?s9 ?a9]; cbn [snd] in E; subst.

Lemma transfer_fades e : taking e -> fades (e_now e) (transfer_nft e).
Proof.
  intros T s a s1 er. unfold transfer_nft. limiter (e_now e) (ta_tid a) s. destruct pass; cbn [negb]; [|left_alone].
  destruct (tokens _ !! _) as [nft|]; [|left_alone]. destruct (check_memo _ _) as [[]|]; [|left_alone|discriminate].
  destruct (_ || _); [left_alone|]. destruct (u64_setting (c_drift _) _) as [dr|]; [|discriminate]. destruct (_ <? _); [left_alone|].
  destruct (u64_setting (c_tx_window _) _) as [wi|]; [|discriminate]. destruct (default _ _ <? _); [left_alone|].
  match goal with |- context [add_transaction e ?x ?z] => taken T e x z end. discriminate.
Qed.
Lemma approve_fades e : taking e -> fades (e_now e) (approve_token e).
Proof.
  intros T s a s1 er. unfold approve_token. limiter (e_now e) (ap_tid a) s. destruct pass; cbn [negb]; [|left_alone].
  destruct (verify_approval_timing _ _ _); [|left_alone|left_alone]. destruct (owner_of _ _) as [ow|]; [|left_alone].
  destruct (negb _); [left_alone|]. destruct (acc_eqb _ anonymous_account); [left_alone|].
  destruct (match tok_appr _ !! _ with Some _ => _ | None => _ end); [left_alone|].
  match goal with |- context [add_transaction e ?x ?z] => taken T e x z end. destruct (_ <? _); discriminate.
Qed.
Lemma approve_coll_fades e : taking e -> fades (e_now e) (approve_collection e).
Proof.
  intros T s a s1 er. unfold approve_collection. limiter (e_now e) 0 s. destruct pass; cbn [negb]; [|left_alone].
  destruct (verify_approval_timing _ _ _); [|left_alone|left_alone]. destruct (acc_eqb _ anonymous_account); [left_alone|].
  destruct (negb _); [left_alone|]. destruct (match col_appr _ !! _ with Some _ => _ | None => _ end); [left_alone|].
  match goal with |- context [add_transaction e ?x ?z] => taken T e x z end. discriminate.
Qed.
Lemma revoke_fades e : taking e -> fades (e_now e) (revoke_token_approvals e).
Proof.
  intros T s a s1 er. unfold revoke_token_approvals.
  assert (K : forall r : res N, Some (s, r) = Some (s1, Err er) -> near (e_now e) s s1) by (intros r H; injection H as <- _; apply near_refl).
  destruct (verify_opt_timing _ _ _); [|apply K|apply K]. destruct (owner_of _ _) as [ow|]; [|apply K].
  destruct (negb _); [apply K|]. destruct (tok_appr _ !! _) as [m|]; [|apply K].
  match goal with |- context [add_transaction e ?x ?z] => taken T e x z end. discriminate.
Qed.
Lemma revoke_coll_fades e : taking e -> fades (e_now e) (revoke_collection_approvals e).
Proof.
  intros T s a s1 er. unfold revoke_collection_approvals. limiter (e_now e) 0 s. destruct pass; cbn [negb]; [|left_alone].
  destruct (verify_opt_timing _ _ _); [|left_alone|left_alone]. destruct (col_appr _ !! _) as [m|]; [|left_alone].
  match goal with |- context [add_transaction e ?x ?z] => taken T e x z end. discriminate.
Qed.
Lemma from_fades e : taking e -> fades (e_now e) (transfer_from e).
Proof.
  intros T s a s1 er. unfold transfer_from. limiter (e_now e) (tf_tid a) s. destruct pass; cbn [negb]; [|left_alone].
  destruct (verify_opt_timing _ _ _); [|left_alone|left_alone]. destruct (tokens _ !! _) as [nft|]; [|left_alone].
  destruct (acc_eqb (tf_from a) _); [left_alone|]. destruct (acc_eqb _ anonymous_account); [left_alone|].
  assert (C1 := check_tok_near (e_now e) (tf_tid a) (mkAcc (e_caller e) (tf_spender_sub a)) (set_windows w s)).
  destruct (check_token_approval _ _ _ _) as [s2 ht]. cbn [fst] in C1.
  assert (C2 := check_col_near (e_now e) (t_owner nft) (mkAcc (e_caller e) (tf_spender_sub a)) s2).
  destruct (check_collection_approval _ _ _ _) as [s3 hc]. cbn [fst] in C2.
  destruct (_ || _).
  - intros H. injection H as <- <-. eapply near_trans; [apply win_near|]. eapply near_trans; [exact C1|exact C2].
  - match goal with |- context [add_transaction e ?x ?z] => taken T e x z end. discriminate.
Qed.

Lemma items_fade {A} now (f : state -> A -> option (state * res N)) :
  fades now f -> forall l s s1 rs, run_items f s l = Some (s1, rs) -> Forall (fun r => exists er, r = Err er) rs -> near now s s1.
Proof.
  intros K l. induction l as [|a l IH]; intros s s1 rs H R; cbn in H; [injection H as <- <-; apply near_refl|].
  destruct (f s a) as [[s2 r]|] eqn:E; [|discriminate]. destruct (run_items f s2 l) as [[s3 ts]|] eqn:E2; [|discriminate].
  injection H as <- <-. apply Forall_cons_1 in R as [[er ->] R]. eapply near_trans; [apply (K _ _ _ _ E)|apply (IH _ _ _ E2 R)].
Qed.

Lemma entry_refused now o e s first :
  (forall z, match first z with (z', inl er) => er <> EStorageCanisterError not_found_msg -> z' = z | _ => True end) ->
  refused o (snd (ans_upload (upload_entry e s first))) -> near now s (fst (ans_upload (upload_entry e s first))).
Proof.
  intros F [_ N]. unfold upload_entry in *. destruct (has_permission _ _ _); [|apply near_refl].
  rewrite guard_new_spec in *. destruct (decide (guards s = ∅)) as [G|]; [|apply near_refl].
  specialize (F (set_guards {[e_caller e]} s)). destruct (first _) as [s2 [er|p]]; [|destruct N]. cbn [ans_upload fst snd] in *.
  rewrite (F N). apply idle_near. unfold guard_drop, idle. cbn. unfold set_guards, set_windows.
  destruct s; cbn in *. subst. f_equal. set_solver.
Qed.

(** A refused call leaves nothing behind but what the rate limiter remembers, and at most approvals that have expired are gone, provided
    that the log takes what it is given. *)
Theorem C159_refused e o s :
  taking e -> refused o (snd (step e o s)) -> near (e_now e) s (fst (step e o s)).
Proof.
  intros T [NR R].
  assert (P : forall z a, step e o s = (z, a) -> z = s -> near (e_now e) s (fst (step e o s))) by (intros z a E ->; rewrite E; apply near_refl).
  destruct o; cbn [step] in *.
  - unfold icrc7_transfer in *. destruct args as [|a0 l0]; [apply near_refl|].
    destruct (usize_try _) as [mx|]; [|apply near_refl]. destruct (_ && _); [apply near_refl|]. destruct (bool_decide _); [apply near_refl|].
    destruct (run_items _ s _) as [[s1 rs]|] eqn:E; [|apply near_refl]. exact (items_fade _ _ (transfer_fades e T) _ _ _ _ E R).
  - unfold icrc37_approve_tokens in *. destruct (run_items _ s _) as [[s1 rs]|] eqn:E; [|apply near_refl].
    exact (items_fade _ _ (approve_fades e T) _ _ _ _ E R).
  - unfold icrc37_approve_collection in *. destruct (run_items _ s _) as [[s1 rs]|] eqn:E; [|apply near_refl].
    exact (items_fade _ _ (approve_coll_fades e T) _ _ _ _ E R).
  - unfold icrc37_revoke_token_approvals in *. destruct args as [|a0 l0]; [apply near_refl|]. limiter (e_now e) (rv_tid a0) s.
    destruct pass; cbn [negb] in *; [|apply win_near]. eapply near_trans; [apply (win_near _ w)|].
    destruct (run_items _ _ _) as [[s1 rs]|] eqn:E; [|apply near_sym, win_near]. exact (items_fade _ _ (revoke_fades e T) _ _ _ _ E R).
  - unfold icrc37_revoke_collection_approvals in *. destruct (run_items _ s _) as [[s1 rs]|] eqn:E; [|apply near_refl].
    exact (items_fade _ _ (revoke_coll_fades e T) _ _ _ _ E R).
  - unfold icrc37_transfer_from in *. destruct (run_items _ s _) as [[s1 rs]|] eqn:E; [|apply near_refl].
    exact (items_fade _ _ (from_fades e T) _ _ _ _ E R).
  - unfold update_collection_metadata, with_permission in *. destruct (has_permission _ _ _); [|apply near_refl].
    rewrite (with_lock_eq _ _ _ (commutes_cfg u)) in *. destruct (decide _); [destruct R|apply near_refl].
  - unfold mint, with_permission in *. destruct (has_permission _ _ _); [|apply near_refl].
    rewrite (with_lock_eq _ _ _ (commutes_mint e reqs)) in *. destruct (decide _); [|apply near_refl]. unfold mint_body in *.
    destruct (_ <? _); [apply near_refl|]. destruct (_ <? _); [apply near_refl|]. destruct (check_memos _ _) as [[]|]; try apply near_refl.
    destruct (mint_metadata _ _ _) as [m|]; [|apply near_refl].
    assert (M : forall l id z, snd (mint_log e id l z) = None).
    { induction l as [|r l IH]; intros id z; [reflexivity|]. cbn [mint_log].
      match goal with |- context [add_transaction e ?x ?z] => taken T e x z end. apply IH. }
    specialize (M reqs (last_id s) (set_metas m s)). destruct (mint_log _ _ _ _) as [s2 [msg|]]; [discriminate|]. destruct R.
  - unfold update_nft_metadata, with_permission in *. destruct (has_permission _ _ _); [|apply near_refl].
    rewrite (with_lock_eq _ _ _ (commutes_update e tid kvs)) in *. destruct (decide _); [|apply near_refl]. unfold update_nft_metadata_body in *.
    destruct (tokens s !! tid); [|apply near_refl]. destruct (replace_metadata _ _ _) as [m|]; [|apply near_refl]. cbv zeta in *.
    match type of R with context [add_transaction e ?x ?z] => taken T e x z end. destruct R.
  - unfold burn_nft in *. rewrite (with_lock_eq _ _ _ (commutes_burn e tid)) in *. destruct (decide _); [|apply near_refl]. unfold burn_body in *.
    destruct (tokens s !! tid); [|apply near_refl]. destruct (negb _); [apply near_refl|].
    match type of R with context [add_transaction e ?x ?z] => taken T e x z end. destruct R.
  - revert R. change (ans_unit s (grant_permission e s p perm)) with (step e (OGrant p perm) s). rewrite step_grant.
    destruct (has_permission _ _ _); [|intros; apply near_refl]. destruct (decide _); [intros []|intros; apply near_refl].
  - revert R. change (ans_unit s (revoke_permission e s p perm)) with (step e (ORevokePerm p perm) s). rewrite step_revoke_perm.
    destruct (has_permission _ _ _); [|intros; apply near_refl]. destruct (decide _); [intros []|intros; apply near_refl].
  - apply (entry_refused _ (OInitUpload path size)); [|split; [exact NR|exact R]].
    intros z. unfold init_upload_first. repeat case_match; simplify_eq; auto.
  - apply (entry_refused _ (OStoreChunk path)); [|split; [exact NR|exact R]].
    intros z. unfold store_chunk_first. repeat case_match; simplify_eq; auto; intros []; reflexivity.
  - apply (entry_refused _ (OFinalize path)); [|split; [exact NR|exact R]].
    intros z. unfold finalize_upload_first. repeat case_match; simplify_eq; auto; intros []; reflexivity.
  - apply (entry_refused _ (OCancel path)); [|split; [exact NR|exact R]].
    intros z. unfold cancel_upload_first. repeat case_match; simplify_eq; auto; intros []; reflexivity.
  - destruct (NR id r eq_refl).
  - destruct R.
Qed.
Print Assumptions C159_refused.

(** ** Histories *)

(** A history of which some calls are to be left out (those marked [false]). *)
Definition marked : Type := list (bool * (env * op)).
Definition whole (h : marked) : history := map snd h.
Definition kept (h : marked) : history := map snd (filter (fun x => fst x = true) h).

(** The answers, in the whole history, to the calls that are kept. *)
Definition kept_answers (h : marked) (s : state) : list answer :=
  map (fun x => ev_ans (snd x)) (filter (fun x => fst x = true) (zip (map fst h) (trace (whole h) s))).

(** Leaving refused calls out of a history changes no answer to the other calls, as long as none of these meets the rate limiter or the
    limit of approvals. *)
Theorem C159_history (h : marked) now s s' :
  clock now (whole h) -> near now s s' ->
  (forall ev, (false, ev) ∈ zip (map fst h) (trace (whole h) s) -> taking (ev_env ev) /\ refused (ev_op ev) (ev_ans ev)) ->
  (forall ev, (true, ev) ∈ zip (map fst h) (trace (whole h) s) -> unhampered (ev_op ev) (ev_ans ev)) ->
  Forall (fun ev => unhampered (ev_op ev) (ev_ans ev)) (trace (kept h) s') ->
  kept_answers h s = map ev_ans (trace (kept h) s') /\ near (end_time now (whole h)) (run (whole h) s) (run (kept h) s').
Proof.
  revert now s s'. induction h as [|[b [e o]] h IH]; intros now s s' L F D N N'; [split; [reflexivity|exact F]|].
  replace (end_time now (whole ((b, (e, o)) :: h))) with (end_time (e_now e) (whole h)).
  2: { unfold end_time, whole. cbn [map snd]. destruct (map snd h) as [|p r]; [reflexivity|]. change (last ((e, o) :: p :: r)) with (last (p :: r)).
       destruct (last (p :: r)) eqn:Z; [reflexivity|]. apply last_None in Z. discriminate. }
  assert (W : whole ((b, (e, o)) :: h) = (e, o) :: whole h) by reflexivity. rewrite W in *. clear W.
  cbn [clock run] in *. destruct L as [L1 L2].
  assert (X := C159_step e o now s s' L1 F). assert (Y := C159_refused e o s).
  assert (Z : zip (map fst ((b, (e, o)) :: h)) (trace ((e, o) :: whole h) s) =
              (b, mkEv s e o (snd (step e o s)) (fst (step e o s))) :: zip (map fst h) (trace (whole h) (fst (step e o s)))).
  { cbn [map trace fst]. destruct (step e o s). reflexivity. }
  assert (K : kept_answers ((b, (e, o)) :: h) s =
              (if b then [snd (step e o s)] else []) ++ kept_answers h (fst (step e o s))).
  { unfold kept_answers. change (whole ((b, (e, o)) :: h)) with ((e, o) :: whole h). rewrite Z. destruct b; reflexivity. }
  rewrite Z in *. rewrite K. clear Z K.
  destruct (step e o s) as [s1 a] eqn:E. cbn [fst snd] in *. destruct b.
  - change (kept ((true, (e, o)) :: h)) with ((e, o) :: kept h) in *. cbn [trace run] in *.
    destruct (step e o s') as [s1' a'] eqn:E'. cbn [fst snd map ev_ans] in *. apply Forall_cons_1 in N' as [N1' N2'].
    destruct X as [-> F1]; [exact (N _ (elem_of_list_here _ _))|exact N1'|].
    destruct (IH (e_now e) s1 s1' L2 F1) as [A F2]; [intros ev H; apply D; right; exact H|intros ev H; apply N; right; exact H|exact N2'|].
    split; [cbn [app]; f_equal; exact A|exact F2].
  - change (kept ((false, (e, o)) :: h)) with (kept h) in *.
    destruct (D _ (elem_of_list_here _ _)) as [T R]. cbn [ev_env ev_op ev_ans] in T, R.
    apply (IH (e_now e) s1 s' L2); [|intros ev H; apply D; right; exact H|intros ev H; apply N; right; exact H|exact N'].
    eapply near_trans; [apply near_sym, (Y T R)|apply (near_later _ _ _ _ L1 F)].
Qed.
Print Assumptions C159_history.

(** From one ledger: with and without its refused calls a history ends in ledgers with the same tokens, metadata, permissions, blocks,
    uploads and settings, and the same approvals in force. *)
Corollary C159_leave_out (h : marked) now s :
  clock now (whole h) ->
  (forall ev, (false, ev) ∈ zip (map fst h) (trace (whole h) s) -> taking (ev_env ev) /\ refused (ev_op ev) (ev_ans ev)) ->
  (forall ev, (true, ev) ∈ zip (map fst h) (trace (whole h) s) -> unhampered (ev_op ev) (ev_ans ev)) ->
  Forall (fun ev => unhampered (ev_op ev) (ev_ans ev)) (trace (kept h) s) ->
  kept_answers h s = map ev_ans (trace (kept h) s) /\
  (let z := run (whole h) s in let z' := run (kept h) s in
   tokens z' = tokens z /\ by_owner z' = by_owner z /\ metas z' = metas z /\ perms z' = perms z /\ log z' = log z /\ files z' = files z /\
   cfg z' = cfg z /\ last_id z' = last_id z /\
   (forall t k, in_force (end_time now (whole h)) (tok_appr z !! t ≫= (.!! k)) = in_force (end_time now (whole h)) (tok_appr z' !! t ≫= (.!! k))) /\
   (forall o k, in_force (end_time now (whole h)) (col_appr z !! o ≫= (.!! k)) = in_force (end_time now (whole h)) (col_appr z' !! o ≫= (.!! k)))).
Proof.
  intros L D N N'. destruct (C159_history h now s s L (near_refl now s) D N N') as [A F]. split; [exact A|]. cbv zeta.
  set (z := run (whole h) s) in *. set (z' := run (kept h) s) in *. destruct F as (R & F1 & F2).
  assert (Q : forall m m' : option appmap, force_opt (end_time now (whole h)) m m' -> forall k, in_force (end_time now (whole h)) (m ≫= (.!! k)) = in_force (end_time now (whole h)) (m' ≫= (.!! k))).
  { intros [m|] [m'|] Q k; try destruct Q; [apply Q|reflexivity]. }
  injection R as R1 R2 R3 R4 R5 R6 R7 R8 R9 R10 R11 R12 R13 R14. cbn [cfg perms tokens by_owner last_id metas files log idle set_windows] in *.
  split; [symmetry; assumption|]. split; [symmetry; assumption|]. split; [symmetry; assumption|]. split; [symmetry; assumption|].
  split; [symmetry; assumption|]. split; [symmetry; assumption|]. split; [symmetry; assumption|]. split; [symmetry; assumption|].
  split; [intros t; apply Q, (F1 t)|intros o; apply Q, (F2 o)].
Qed.
Print Assumptions C159_leave_out.

(** ** Where a refused call is felt *)

(** The rate limiter counts refused items: after five refused ones of bob, alice's own transfer is refused. *)
Theorem C159_limiter_refuted :
  let e := from_ bob 10 in let o := OTransfer (repeat (xfer bob 1) 5) in
  let e' := from_ alice 20 in let o' := OTransfer [xfer carol 1] in
  reachable demo1 /\ taking e /\ refused o (snd (step e o demo1)) /\
  snd (step e' o' demo1) = ABatch [Ok 3] /\ unhampered o' (ABatch [Ok 3]) /\
  snd (step e' o' (fst (step e o demo1))) =
    ABatch [Err (EGeneric 0 "Rate limit exceeded. You can make another call in 59999990 milliseconds")].
Proof.
  cbv zeta. split; [apply demo_reachable|]. split; [intros k t; eexists; reflexivity|].
  split; [split; [intros id r; discriminate|vm_compute; repeat constructor; eexists; reflexivity]|].
  split; [vm_compute; reflexivity|]. split; [repeat constructor; intros er [=]|vm_compute; reflexivity].
Qed.
Print Assumptions C159_limiter_refuted.

Lemma near_meta now s s' t k : near now s s' -> meta_of s t k = meta_of s' t k.
Proof.
  intros (R & _). injection R as R1 R2 R3 R4 R5 R6 R7 R8 R9 R10 R11 R12 R13 R14. cbn [metas idle set_windows] in *.
  unfold meta_of. congruence.
Qed.

(** When the log does not take what it is given, a refused change of metadata stays. *)
Theorem C159_log_refuted :
  let e := with_log no_log (from_ admin 5) in let o := OUpdateMeta 1 [("z"%string, VNat 9)] in
  reachable demo1 /\ refused o (snd (step e o demo1)) /\
  meta_of demo1 1 "z" = None /\ meta_of (fst (step e o demo1)) 1 "z" = Some (VNat 9) /\ ~ near (e_now e) demo1 (fst (step e o demo1)).
Proof.
  cbv zeta. split; [apply demo_reachable|].
  split. { split; [intros id r; discriminate|]. assert (A : snd (step (with_log no_log (from_ admin 5)) (OUpdateMeta 1 [("z"%string, VNat 9)]) demo1) =
             AErr (EStorageCanisterError "log full")) by (vm_compute; reflexivity). rewrite A. intros [=]. }
  assert (X : meta_of demo1 1 "z" = None) by (vm_compute; reflexivity).
  assert (Y : meta_of (fst (step (with_log no_log (from_ admin 5)) (OUpdateMeta 1 [("z"%string, VNat 9)]) demo1)) 1 "z" = Some (VNat 9)) by (vm_compute; reflexivity).
  split; [exact X|]. split; [exact Y|]. intros N. apply (near_meta _ _ _ 1 "z") in N. rewrite X, Y in N. discriminate N.
Qed.
Print Assumptions C159_log_refuted.

(** ** Example *)

(** carol's approval has expired, bob is no minter, the name of bob's upload is unknown and token 7 does not exist: all these calls are
    refused and may be left out. *)
Example C159_example :
  let h := [(false, (from_ carol 9000000000, OTransferFrom [tfrom alice carol 2]));
            (true, (from_ alice 9000000000, OApproveTokens [appr 2 carol 9000000000 None]));
            (false, (from_ bob 9100000000, mint3));
            (false, (from_ admin 9200000000, OStoreChunk "x"));
            (true, (from_ bob 9500000000, OTransferFrom [tfrom alice bob 1]));
            (false, (from_ alice 9600000000, OTransfer [xfer carol 7; xfer carol 1]));
            (true, (from_ carol 11000000000, OTransferFrom [tfrom alice carol 2]))] in
  reachable demo2 /\ clock t0 (whole h) /\
  map ev_ans (trace (whole h) demo2) =
    [ABatch [Err EUnauthorized]; ABatch [Ok 5]; AReject "Caller does not have minting permission"; AErr EUploadNotInitialized; ABatch [Ok 6];
     ABatch [Err ENonExistingTokenId; Err EInvalidRecipient]; ABatch [Ok 7]] /\
  kept_answers h demo2 = [ABatch [Ok 5]; ABatch [Ok 6]; ABatch [Ok 7]] /\
  map ev_ans (trace (kept h) demo2) = [ABatch [Ok 5]; ABatch [Ok 6]; ABatch [Ok 7]] /\
  approvals_of (run (whole (take 4 h)) demo2) (acct alice) = [] /\ approvals_of (run (kept (take 4 h)) demo2) (acct alice) <> [].
Proof.
  cbv zeta. split; [apply demo_reachable|]. split; [vm_compute; repeat split; discriminate|].
  split; [vm_compute; reflexivity|]. split; [vm_compute; reflexivity|]. split; [vm_compute; reflexivity|].
  split; [vm_compute; reflexivity|vm_compute; discriminate].
Qed.
