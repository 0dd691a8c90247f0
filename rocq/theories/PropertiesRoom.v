(** C155: a higher limit refuses nothing that was granted. *)
From Verif Require Import Base ModelPrincipal ModelState ModelIcrc7 ModelIcrc37 ModelManagement ModelLifecycle
  ModelQueries ModelStep ProofsItems ProofsManage ProofsMicro Spec ProofsCore ProofsLock Scenario PropertiesManage PropertiesPrivacy
  PropertiesMirror.

(** The limit [o'] is no lower than [o] ([d] holds where none is set), and a new one fits the 32 bits the code counts with. *)
Definition looser (d : N) (o o' : option N) : Prop := o = o' \/ (default d o <= default d o' /\ default d o' < 2 ^ 32).

(** Settings [c'] have higher limits than [c].  The times of the collection and the rule for oversized batches are the same, what
    is only told or concerns reads alone may differ. *)
Definition roomier (c c' : config) : Prop :=
  default 10000 (c_supply_cap c) <= default 10000 (c_supply_cap c') /\
  looser 100 (c_max_update c) (c_max_update c') /\
  looser 1000000 (c_max_memo c) (c_max_memo c') /\
  looser 10 (c_max_appr c) (c_max_appr c') /\
  looser 10 (c_max_revoke c) (c_max_revoke c') /\
  c_atomic c = c_atomic c' /\ c_tx_window c = c_tx_window c' /\ c_drift c = c_drift c'.

(** The ledger without the settings. *)
Definition but_cfg (s : state) :=
  (perms s, tokens s, by_owner s, last_id s, redirs s, subs s, tok_appr s, col_appr s, metas s, windows s, guards s, files s, log s,
   lcalls s, pend s, next_pend s).

(** [s'] is [s] with higher limits. *)
Definition roomy (s s' : state) : Prop := but_cfg s = but_cfg s' /\ roomier (cfg s) (cfg s').

(** Number of items of a call. *)
Definition items (o : op) : nat :=
  match o with
  | OTransfer l => length l | OApproveTokens l => length l | OApproveCollection l => length l
  | ORevokeTokens l => length l | ORevokeCollection l => length l | OTransferFrom l => length l
  | _ => 0
  end.

(** The refusals that name a limit. *)
Definition names_limit (er : err) : Prop :=
  er ∈ [EGeneric 0 "Exceeds Max Memo Size"; EGeneric 1 "Maximum approvals per token exceeded";
        EGeneric 1 "Maximum approvals per collection exceeded"; EGeneric 0 "Exceed Max allowed Update Batch Size";
        EExceedMaxAllowedSupplyCap; EInvalidMemo].

(** No limit stood in the way: no trap of the call itself, every item was looked at, and no refusal names a limit. *)
Definition unhindered (o : op) (a : answer) : Prop :=
  match a with
  | ATrap => exists id r, o = OReply id r
  | ABatch l => length l = items o /\ Forall (fun r => forall er, r = Err er -> ~ names_limit er) l
  | AErr er => ~ names_limit er
  | _ => True
  end.

(** ** One item *)

Lemma but_cfg_set s s' : but_cfg s = but_cfg s' -> s' = set_cfg (cfg s') s.
Proof. unfold but_cfg, set_cfg. destruct s, s'; cbn. intros [=]. subst. reflexivity. Qed.

Lemma looser_usize d o o' : looser d o o' ->
  forall n, usize_try (default d o) = Some n -> exists n', usize_try (default d o') = Some n' /\ n <= n'.
Proof.
  unfold usize_try. intros [->|[L B]] n E; [exists n; split; [exact E|lia]|].
  change two32 with (2 ^ 32) in *. destruct (_ <? _) eqn:X; [|discriminate]. injection E as <-.
  exists (default d o'). split; [|exact L]. replace (default d o' <? 2 ^ 32) with true by (symmetry; apply N.ltb_lt, B). reflexivity.
Qed.
Lemma looser_limit o o' : looser 10 o o' -> usize_limit o <= usize_limit o'.
Proof.
  unfold usize_limit, usize_try, default_max_appr. intros [->|[L B]]; [lia|].
  change two32 with (2 ^ 32). replace (default 10 o' <? 2 ^ 32) with true by (symmetry; apply N.ltb_lt, B).
  replace (default 10 o <? 2 ^ 32) with true by (symmetry; apply N.ltb_lt; lia). exact L.
Qed.

Lemma guard_set c now t s :
  guard_sliding_window now t (set_cfg c s) =
    (set_cfg c (fst (guard_sliding_window now t s)), snd (guard_sliding_window now t s)).
Proof. unfold guard_sliding_window. cbn. destruct (_ <=? _); reflexivity. Qed.
Lemma guard_cfg now t s : cfg (fst (guard_sliding_window now t s)) = cfg s.
Proof. unfold guard_sliding_window. cbn. destruct (_ <=? _); reflexivity. Qed.
Lemma add_set c e t s :
  add_transaction e t (set_cfg c s) = (set_cfg c (fst (add_transaction e t s)), snd (add_transaction e t s)).
Proof. unfold add_transaction. cbn. destruct (e_log _ _ _); reflexivity. Qed.
Lemma add_cfg e t s : cfg (fst (add_transaction e t s)) = cfg s.
Proof. unfold add_transaction. cbn. destruct (e_log _ _ _); reflexivity. Qed.
Lemma check_tok_set c now t sp s :
  check_token_approval now t sp (set_cfg c s) =
    (set_cfg c (fst (check_token_approval now t sp s)), snd (check_token_approval now t sp s)).
Proof. unfold check_token_approval. cbn. repeat case_match; reflexivity. Qed.
Lemma check_col_set c now ow sp s :
  check_collection_approval now ow sp (set_cfg c s) =
    (set_cfg c (fst (check_collection_approval now ow sp s)), snd (check_collection_approval now ow sp s)).
Proof. unfold check_collection_approval. cbn. repeat case_match; reflexivity. Qed.
Lemma check_tok_cfg now t sp s : cfg (fst (check_token_approval now t sp s)) = cfg s.
Proof. unfold check_token_approval. repeat case_match; reflexivity. Qed.
Lemma check_col_cfg now t sp s : cfg (fst (check_collection_approval now t sp s)) = cfg s.
Proof. unfold check_collection_approval. repeat case_match; reflexivity. Qed.

Lemma timing_set c s created now : roomier (cfg s) c -> verify_approval_timing (set_cfg c s) created now = verify_approval_timing s created now.
Proof. intros (_ & _ & _ & _ & _ & _ & W & D). unfold verify_approval_timing. cbn [cfg set_cfg]. rewrite W, D. reflexivity. Qed.
Lemma opt_timing_set c s created now : roomier (cfg s) c -> verify_opt_timing (set_cfg c s) created now = verify_opt_timing s created now.
Proof. intros R. destruct created; [apply timing_set, R|reflexivity]. Qed.
Lemma memo_set c s m : roomier (cfg s) c -> check_memo s m = Some true -> check_memo (set_cfg c s) m = Some true.
Proof.
  intros (_ & _ & M & _) H. unfold check_memo in *. destruct m as [m|]; [|reflexivity]. cbn [cfg set_cfg].
  change default_max_memo with 1000000 in *.
  destruct (usize_try (default 1000000 (c_max_memo (cfg s)))) as [n|] eqn:E; [|discriminate].
  destruct (looser_usize _ _ _ M n E) as (n' & -> & L). injection H as H. apply N.leb_le in H. f_equal. apply N.leb_le. lia.
Qed.

(** [f] does with higher limits what it did unless a limit stood in the way, and leaves the settings alone. *)
Definition fits {A} (f : state -> A -> option (state * res N)) : Prop :=
  forall c s a, roomier (cfg s) c ->
    match f s a with
    | None => True
    | Some (s1, r) => (exists er, r = Err er /\ names_limit er) \/ (cfg s1 = cfg s /\ f (set_cfg c s) a = Some (set_cfg c s1, r))
    end.

Ltac in_list := first [apply elem_of_list_here|apply elem_of_list_further; in_list].
Ltac same := right; split; [congruence|reflexivity].
Ltac limit := left; eexists; split; [reflexivity|unfold names_limit; in_list].

Lemma transfer_fits e : fits (transfer_nft e).
Proof.
  intros c s a R. unfold transfer_nft. rewrite guard_set.
  assert (G := guard_cfg (e_now e) (ta_tid a) s). destruct (guard_sliding_window (e_now e) (ta_tid a) s) as [s0 pass]. cbn [fst snd] in *.
  rewrite <- G in R. destruct pass; cbn [negb]; [|same].
  change (tokens (set_cfg c s0)) with (tokens s0). destruct (tokens s0 !! ta_tid a) as [nft|]; [|same].
  destruct (check_memo s0 (ta_memo a)) as [[]|] eqn:Em; [|limit|exact Logic.I]. rewrite (memo_set c s0 _ R Em).
  destruct (_ || _); [same|]. cbn [cfg set_cfg]. destruct R as (_ & _ & _ & _ & _ & _ & W & D). rewrite <- W, <- D.
  destruct (u64_setting (c_drift _) _) as [dr|]; [|exact Logic.I]. destruct (_ <? _); [same|].
  destruct (u64_setting (c_tx_window _) _) as [wi|]; [|exact Logic.I]. destruct (default _ _ <? _); [same|]. rewrite add_set.
  match goal with |- context [add_transaction e ?t s0] => assert (A := add_cfg e t s0) end.
  destruct (add_transaction _ _ s0) as [s2 ans]. cbn [fst snd] in *.
  destruct ans; right; (split; [exact (eq_trans A G)|reflexivity]).
Qed.

Lemma approve_fits e : fits (approve_token e).
Proof.
  intros c s a R. unfold approve_token. rewrite guard_set.
  assert (G := guard_cfg (e_now e) (ap_tid a) s). destruct (guard_sliding_window (e_now e) (ap_tid a) s) as [s0 pass]. cbn [fst snd] in *.
  rewrite <- G in R. destruct pass; cbn [negb]; [|same]. rewrite (timing_set _ _ _ _ R).
  destruct (verify_approval_timing _ _ _); [|same|same].
  change (owner_of (set_cfg c s0)) with (owner_of s0). destruct (owner_of s0 _) as [ow|]; [|same].
  destruct (negb _); [same|]. destruct (acc_eqb _ anonymous_account); [same|].
  change (tok_appr (set_cfg c s0)) with (tok_appr s0). cbn [cfg set_cfg].
  destruct (match tok_appr s0 !! _ with Some _ => usize_limit (c_max_appr (cfg s0)) <=? _ | None => _ end) eqn:E3; [limit|].
  replace (match tok_appr s0 !! ap_tid a with Some m => usize_limit (c_max_appr c) <=? N.of_nat (size m) | None => false end) with false.
  2: { symmetry. destruct (tok_appr s0 !! ap_tid a) as [m|]; [|reflexivity]. apply N.leb_gt in E3. apply N.leb_gt.
       destruct R as (_ & _ & _ & L & _). apply looser_limit in L. lia. }
  rewrite add_set.
  match goal with |- context [add_transaction e ?t s0] => assert (A := add_cfg e t s0) end.
  destruct (add_transaction _ _ s0) as [s2 ans]. cbn [fst snd] in *.
  destruct ans; try destruct (_ <? _); try exact Logic.I; right; (split; [exact (eq_trans A G)|reflexivity]).
Qed.

Lemma approve_coll_fits e : fits (approve_collection e).
Proof.
  intros c s a R. unfold approve_collection. rewrite guard_set.
  assert (G := guard_cfg (e_now e) 0 s). destruct (guard_sliding_window (e_now e) 0 s) as [s0 pass]. cbn [fst snd] in *.
  rewrite <- G in R. destruct pass; cbn [negb]; [|same]. rewrite (timing_set _ _ _ _ R).
  destruct (verify_approval_timing _ _ _); [|same|same].
  destruct (acc_eqb _ anonymous_account); [same|]. change (has_nfts (set_cfg c s0)) with (has_nfts s0). destruct (negb _); [same|].
  change (col_appr (set_cfg c s0)) with (col_appr s0). cbn [cfg set_cfg].
  destruct (match col_appr s0 !! _ with Some _ => usize_limit (c_max_appr (cfg s0)) <=? _ | None => _ end) eqn:E3; [limit|].
  replace (match col_appr s0 !! _ with Some m => usize_limit (c_max_appr c) <=? N.of_nat (size m) | None => false end) with false.
  2: { symmetry. destruct (col_appr s0 !! _) as [m|]; [|reflexivity]. apply N.leb_gt in E3. apply N.leb_gt.
       destruct R as (_ & _ & _ & L & _). apply looser_limit in L. lia. }
  rewrite add_set.
  match goal with |- context [add_transaction e ?t s0] => assert (A := add_cfg e t s0) end.
  destruct (add_transaction _ _ s0) as [s2 ans]. cbn [fst snd] in *.
  destruct ans; right; (split; [exact (eq_trans A G)|reflexivity]).
Qed.

Lemma revoke_fits e : fits (revoke_token_approvals e).
Proof.
  intros c s a R. unfold revoke_token_approvals. rewrite (opt_timing_set _ _ _ _ R).
  destruct (verify_opt_timing _ _ _); [|same|same].
  change (owner_of (set_cfg c s)) with (owner_of s). destruct (owner_of s _) as [ow|]; [|same].
  destruct (negb _); [same|]. change (tok_appr (set_cfg c s)) with (tok_appr s). destruct (tok_appr s !! _) as [m|]; [|same].
  rewrite add_set.
  match goal with |- context [add_transaction e ?t s] => assert (A := add_cfg e t s) end.
  destruct (add_transaction _ _ s) as [s2 ans]. cbn [fst snd] in *.
  destruct ans; right; (split; [exact A|reflexivity]).
Qed.

Lemma revoke_coll_fits e : fits (revoke_collection_approvals e).
Proof.
  intros c s a R. unfold revoke_collection_approvals. rewrite guard_set.
  assert (G := guard_cfg (e_now e) 0 s). destruct (guard_sliding_window (e_now e) 0 s) as [s0 pass]. cbn [fst snd] in *.
  rewrite <- G in R. destruct pass; cbn [negb]; [|same]. rewrite (opt_timing_set _ _ _ _ R).
  destruct (verify_opt_timing _ _ _); [|same|same].
  change (col_appr (set_cfg c s0)) with (col_appr s0). destruct (col_appr s0 !! _) as [m|]; [|same]. rewrite add_set.
  match goal with |- context [add_transaction e ?t s0] => assert (A := add_cfg e t s0) end.
  destruct (add_transaction _ _ s0) as [s2 ans]. cbn [fst snd] in *.
  destruct ans; right; (split; [exact (eq_trans A G)|reflexivity]).
Qed.

Lemma from_fits e : fits (transfer_from e).
Proof.
  intros c s a R. unfold transfer_from. rewrite guard_set.
  assert (G := guard_cfg (e_now e) (tf_tid a) s). destruct (guard_sliding_window (e_now e) (tf_tid a) s) as [s0 pass]. cbn [fst snd] in *.
  rewrite <- G in R. destruct pass; cbn [negb]; [|same]. rewrite (opt_timing_set _ _ _ _ R).
  destruct (verify_opt_timing _ _ _); [|same|same].
  change (tokens (set_cfg c s0)) with (tokens s0). destruct (tokens s0 !! _) as [nft|]; [|same].
  destruct (acc_eqb (tf_from a) _); [same|]. destruct (acc_eqb _ anonymous_account); [same|].
  rewrite check_tok_set.
  match goal with |- context [check_token_approval ?n ?t ?sp s0] => assert (C1 := check_tok_cfg n t sp s0) end.
  destruct (check_token_approval _ _ _ s0) as [s2 ht]. cbn [fst snd] in *. rewrite check_col_set.
  match goal with |- context [check_collection_approval ?n ?t ?sp s2] => assert (C2 := check_col_cfg n t sp s2) end.
  destruct (check_collection_approval _ _ _ s2) as [s3 hc]. cbn [fst snd] in *.
  destruct (_ || _); [same|]. rewrite add_set.
  match goal with |- context [add_transaction e ?t s3] => assert (A := add_cfg e t s3) end.
  destruct (add_transaction _ _ s3) as [s4 ans]. cbn [fst snd] in *.
  destruct ans; right; (split; [exact (eq_trans A (eq_trans C2 (eq_trans C1 G)))|reflexivity]).
Qed.

Lemma items_fit {A} (f : state -> A -> option (state * res N)) :
  fits f -> forall l s s1 rs, run_items f s l = Some (s1, rs) -> Forall (fun r => forall er, r = Err er -> ~ names_limit er) rs ->
    forall c, roomier (cfg s) c -> cfg s1 = cfg s /\ run_items f (set_cfg c s) l = Some (set_cfg c s1, rs).
Proof.
  intros F l. induction l as [|a l IH]; intros s s1 rs H O c R; cbn in H.
  { injection H as <- <-. split; reflexivity. }
  assert (X := F c s a R).
  destruct (f s a) as [[s2 b]|] eqn:E; [|discriminate]. destruct (run_items f s2 l) as [[s3 bs]|] eqn:E2; [|discriminate].
  injection H as <- <-. apply Forall_cons_1 in O as [N O]. destruct X as [(er & -> & X)|[C1 K1]]; [destruct (N er eq_refl X)|].
  rewrite <- C1 in R. destruct (IH s2 s3 bs E2 O c R) as [C2 K2].
  split; [congruence|]. cbn. rewrite K1, K2. reflexivity.
Qed.

Lemma take_all {A} (n : N) (l : list A) : length (take_n n l) = length l -> take_n n l = l /\ nlen l <= n.
Proof.
  unfold take_n, nlen. rewrite take_length. intros H. split; [|lia]. apply take_ge. lia.
Qed.
Lemma take_more {A} (n : N) (l : list A) : nlen l <= n -> take_n n l = l.
Proof. unfold take_n, nlen. intros H. apply take_ge. lia. Qed.

(** ** The other calls *)

Lemma memos_set c s l : roomier (cfg s) c -> check_memos s l = Some true -> check_memos (set_cfg c s) l = Some true.
Proof.
  intros R. induction l as [|r l IH]; [reflexivity|]. cbn [check_memos].
  destruct (check_memo s (mr_memo r)) as [[]|] eqn:E; try discriminate. rewrite (memo_set _ _ _ R E). exact IH.
Qed.
Lemma mint_log_set c e l : forall id s, mint_log e id l (set_cfg c s) = (set_cfg c (fst (mint_log e id l s)), snd (mint_log e id l s)).
Proof.
  induction l as [|r l IH]; intros id s; [reflexivity|]. cbn [mint_log]. rewrite add_set.
  destruct (add_transaction _ _ s) as [s1 []]; cbn [fst snd]; [apply IH|reflexivity..].
Qed.
Lemma mint_log_cfg e l : forall id s, cfg (fst (mint_log e id l s)) = cfg s.
Proof.
  induction l as [|r l IH]; intros id s; [reflexivity|]. cbn [mint_log].
  assert (A := add_cfg e (mint_tx (e_now e) id r) s). destruct (add_transaction _ _ s) as [s1 []]; cbn [fst snd] in *; try exact A.
  rewrite IH. exact A.
Qed.
Lemma mint_insert_set c l : forall id s, mint_insert id l (set_cfg c s) = set_cfg c (mint_insert id l s).
Proof. induction l as [|r l IH]; intros id s; [reflexivity|]. cbn [mint_insert]. rewrite <- IH. reflexivity. Qed.
Lemma mint_insert_cfg l : forall id s, cfg (mint_insert id l s) = cfg s.
Proof. induction l as [|r l IH]; intros id s; [reflexivity|]. cbn [mint_insert]. rewrite IH. reflexivity. Qed.

Lemma mint_fits e l s c :
  roomier (cfg s) c ->
  match mint_body e l s with
  | None => True
  | Some (s1, r) => (exists er, r = MErr er /\ names_limit er) \/ (cfg s1 = cfg s /\ mint_body e l (set_cfg c s) = Some (set_cfg c s1, r))
  end.
Proof.
  intros R. unfold mint_body.
  destruct (default default_max_update (c_max_update (cfg s)) <? _) eqn:E1; [limit|].
  destruct (default default_supply_cap (c_supply_cap (cfg s)) <? _) eqn:E2; [limit|].
  destruct (check_memos s l) as [[]|] eqn:E3; [|limit|exact Logic.I].
  cbn [cfg set_cfg].
  change (tokens (set_cfg c s)) with (tokens s). change (metas (set_cfg c s)) with (metas s). change (last_id (set_cfg c s)) with (last_id s).
  rewrite (memos_set _ _ _ R E3). apply N.ltb_ge in E1, E2. destruct R as (R1 & R2 & _).
  change default_max_update with 100 in *. change default_supply_cap with 10000 in *.
  assert (R3 : default 100 (c_max_update (cfg s)) <= default 100 (c_max_update c)) by (destruct R2 as [->|[? _]]; lia).
  replace (_ <? nlen l) with false by (symmetry; apply N.ltb_ge; lia). replace (_ <? _) with false by (symmetry; apply N.ltb_ge; lia).
  destruct (mint_metadata _ l _) as [m|]; [|exact Logic.I].
  change (set_metas m (set_cfg c s)) with (set_cfg c (set_metas m s)). rewrite mint_log_set.
  assert (A := mint_log_cfg e l (last_id s) (set_metas m s)).
  destruct (mint_log _ _ l (set_metas m s)) as [s2 [msg|]]; cbn [fst snd] in *; right; [split; [exact A|reflexivity]|].
  split; [rewrite mint_insert_cfg; exact A|].
  change (set_last_id ?x (set_cfg c s2)) with (set_cfg c (set_last_id x s2)). rewrite mint_insert_set. reflexivity.
Qed.

(** [f] neither reads nor writes the settings. *)
Definition blind {B} (f : state -> option (state * B)) : Prop :=
  forall c s, f (set_cfg c s) = match f s with None => None | Some (s', r) => Some (set_cfg c s', r) end.

Lemma burn_blind e t : blind (burn_body e t).
Proof.
  intros c s. unfold burn_body. change (tokens (set_cfg c s)) with (tokens s).
  destruct (tokens s !! t) as [tok|]; [|reflexivity]. destruct (negb _); [reflexivity|]. rewrite add_set.
  destruct (add_transaction _ _ s) as [s1 []]; reflexivity.
Qed.
Lemma update_blind e t kvs : blind (update_nft_metadata_body e t kvs).
Proof.
  intros c s. unfold update_nft_metadata_body. change (tokens (set_cfg c s)) with (tokens s).
  destruct (tokens s !! t) as [tok|]; [|reflexivity]. change (metas (set_cfg c s)) with (metas s).
  destruct (replace_metadata _ _ _) as [m|]; [|reflexivity]. cbv zeta.
  change (set_metas m (set_cfg c s)) with (set_cfg c (set_metas m s)). change (metas (set_cfg c (set_metas m s))) with m.
  change (metas (set_metas m s)) with m. rewrite add_set.
  destruct (add_transaction _ _ (set_metas m s)) as [s1 []]; reflexivity.
Qed.

Lemma entry_blind e c s first :
  (forall z, first (set_cfg c z) = (set_cfg c (fst (first z)), snd (first z))) ->
  ans_upload (upload_entry e (set_cfg c s) first) =
    (set_cfg c (fst (ans_upload (upload_entry e s first))), snd (ans_upload (upload_entry e s first))).
Proof.
  intros F. unfold upload_entry. change (has_permission (set_cfg c s)) with (has_permission s). destruct (has_permission _ _ _); [|reflexivity].
  rewrite !guard_new_spec. change (guards (set_cfg c s)) with (guards s). destruct (decide _); [|reflexivity].
  change (set_guards {[e_caller e]} (set_cfg c s)) with (set_cfg c (set_guards {[e_caller e]} s)).
  rewrite F. destruct (first _) as [s2 [er|p]]; reflexivity.
Qed.

Lemma first_blind_init e c path size z :
  init_upload_first e path size (set_cfg c z) =
    (set_cfg c (fst (init_upload_first e path size z)), snd (init_upload_first e path size z)).
Proof.
  unfold init_upload_first. change (contains_path (set_cfg c z)) with (contains_path z). destruct (contains_path z path); [reflexivity|].
  destruct (_ <? _); reflexivity.
Qed.
Lemma first_blind_store e c k z :
  store_chunk_first e k (set_cfg c z) = (set_cfg c (fst (store_chunk_first e k z)), snd (store_chunk_first e k z)).
Proof.
  unfold store_chunk_first. change (files (set_cfg c z)) with (files z). change (subs (set_cfg c z)) with (subs z).
  destruct (files z !! k) as [u|]; [|reflexivity]. destruct (u_state u); try destruct (bool_decide _); reflexivity.
Qed.
Lemma first_blind_finalize e c k z :
  finalize_upload_first e k (set_cfg c z) = (set_cfg c (fst (finalize_upload_first e k z)), snd (finalize_upload_first e k z)).
Proof.
  unfold finalize_upload_first. change (files (set_cfg c z)) with (files z). change (subs (set_cfg c z)) with (subs z).
  destruct (files z !! k) as [u|]; [|reflexivity]. destruct (u_state u); try destruct (bool_decide _); reflexivity.
Qed.
Lemma first_blind_cancel e c k z :
  cancel_upload_first e k (set_cfg c z) = (set_cfg c (fst (cancel_upload_first e k z)), snd (cancel_upload_first e k z)).
Proof.
  unfold cancel_upload_first. change (files (set_cfg c z)) with (files z). change (subs (set_cfg c z)) with (subs z).
  destruct (files z !! k) as [u|]; [|reflexivity]. destruct (u_state u); try destruct (bool_decide _); reflexivity.
Qed.

(** Calls that have nothing to do with the settings. *)
Definition free (o : op) : bool :=
  match o with
  | OUpdateMeta _ _ | OBurn _ | OGrant _ _ | ORevokePerm _ _ | OInitUpload _ _ | OStoreChunk _ | OFinalize _ | OCancel _
  | OReply _ _ | OUpgrade => true
  | _ => false
  end.

Lemma step_free e o c s : free o = true -> step e o (set_cfg c s) = (set_cfg c (fst (step e o s)), snd (step e o s)).
Proof.
  intros F. destruct o; try discriminate F.
  - cbn [step]. unfold update_nft_metadata, with_permission. change (has_permission (set_cfg c s)) with (has_permission s).
    destruct (has_permission _ _ _); [|reflexivity]. rewrite !(with_lock_eq _ _ _ (commutes_update e tid kvs)).
    change (guards (set_cfg c s)) with (guards s). destruct (decide _); [|reflexivity]. rewrite update_blind.
    destruct (update_nft_metadata_body _ _ _ _) as [[? []]|]; reflexivity.
  - cbn [step]. unfold burn_nft. rewrite !(with_lock_eq _ _ _ (commutes_burn e tid)).
    change (guards (set_cfg c s)) with (guards s). destruct (decide _); [|reflexivity]. rewrite burn_blind.
    destruct (burn_body _ _ _) as [[? [|[]|]]|]; reflexivity.
  - rewrite !step_grant. change (has_permission (set_cfg c s)) with (has_permission s). change (guards (set_cfg c s)) with (guards s).
    destruct (has_permission _ _ _); [|reflexivity]. destruct (decide _); reflexivity.
  - rewrite !step_revoke_perm. change (has_permission (set_cfg c s)) with (has_permission s). change (guards (set_cfg c s)) with (guards s).
    destruct (has_permission _ _ _); [|reflexivity]. destruct (decide _); reflexivity.
  - apply entry_blind. intros z. apply first_blind_init.
  - apply entry_blind. intros z. apply first_blind_store.
  - apply entry_blind. intros z. apply first_blind_finalize.
  - apply entry_blind. intros z. apply first_blind_cancel.
  - cbn [step]. unfold resume. change (pend (set_cfg c s)) with (pend s). destruct (pend s !! id) as [p|]; [|reflexivity].
    destruct p, r; reflexivity.
  - cbn [step fst snd]. rewrite !upgrade_eq. reflexivity.
Qed.
Lemma free_cfg e o s : free o = true -> cfg (fst (step e o s)) = cfg s.
Proof.
  intros F. assert (E : s = set_cfg (cfg s) s) by (destruct s; reflexivity).
  rewrite E at 1. rewrite (step_free e o _ s F). reflexivity.
Qed.

Lemma update_roomier u c c' : roomier c c' -> roomier (apply_update u c) (apply_update u c').
Proof.
  intros (R1 & R2 & R3 & R4 & R5 & R6 & R7 & R8). unfold roomier, apply_update. cbn. unfold upd.
  repeat split; try assumption.
  - destruct (cu_supply_cap u); [lia|assumption].
  - destruct (cu_max_update u); [left; reflexivity|assumption].
  - destruct (cu_max_memo u); [left; reflexivity|assumption].
  - destruct (cu_atomic u); [reflexivity|assumption].
  - destruct (cu_tx_window u); [reflexivity|assumption].
  - destruct (cu_drift u); [reflexivity|assumption].
Qed.

(** ** One message *)

(** Unless a limit stood in the way of a call, it gets the same answer and has the same effect when the limits are higher. *)
Theorem C155_step e o s s' :
  roomy s s' -> unhindered o (snd (step e o s)) ->
  snd (step e o s') = snd (step e o s) /\ roomy (fst (step e o s)) (fst (step e o s')).
Proof.
  intros [B R] G. rewrite (but_cfg_set s s' B). generalize dependent (cfg s'). intros c R. clear B s'.
  assert (K : forall z a, step e o s = (z, a) -> cfg z = cfg s -> step e o (set_cfg c s) = (set_cfg c z, a) ->
    snd (step e o (set_cfg c s)) = snd (step e o s) /\ roomy (fst (step e o s)) (fst (step e o (set_cfg c s)))).
  { intros z a E1 E2 E3. rewrite E1, E3. split; [reflexivity|]. split; [reflexivity|]. cbn [fst cfg set_cfg]. rewrite E2. exact R. }
  destruct (free o) eqn:F.
  { eapply K; [apply surjective_pairing|apply free_cfg, F|apply step_free, F]. }
  assert (LR := R). destruct LR as (_ & RU & _ & _ & RV & RA & _ & _).
  assert (NT : snd (step e o s) <> ATrap).
  { intros X. rewrite X in G. destruct G as (id & r & ->). discriminate F. }
  destruct o; try discriminate F; cbn [step] in G, K, NT |- *.
  - unfold icrc7_transfer in *. destruct args as [|a0 l0]; [eapply K; reflexivity|].
    set (l := a0 :: l0) in *. cbn [cfg set_cfg]. change default_max_update with 100 in *.
    destruct (usize_try (default 100 (c_max_update (cfg s)))) as [mx|] eqn:Eu; [|destruct NT; reflexivity].
    destruct (looser_usize _ _ _ RU _ Eu) as (mx' & Eu' & Le). cbn [cfg set_cfg] in K. rewrite Eu' in *. rewrite <- RA in *.
    destruct (default false (c_atomic (cfg s)) && (mx <? nlen l)) eqn:Ea.
    { destruct G as [_ G]. apply Forall_cons_1 in G as [G _]. destruct (G _ eq_refl). unfold names_limit. in_list. }
    replace (default false (c_atomic (cfg s)) && (mx' <? nlen l)) with false in *.
    2: { symmetry. apply andb_false_iff. apply andb_false_iff in Ea as [Ea|Ea]; [left; exact Ea|right]. apply N.ltb_ge in Ea. apply N.ltb_ge. lia. }
    destruct (bool_decide _); [eapply K; reflexivity|].
    destruct (run_items _ s _) as [[s1 rs]|] eqn:Er; [|destruct NT; reflexivity]. cbn [ans_batch snd unhindered items] in G. destruct G as [GL GO].
    assert (L := run_items_length _ _ _ _ _ Er). rewrite GL in L. destruct (take_all mx l (eq_sym L)) as [T Lm]. rewrite T in Er.
    destruct (items_fit _ (transfer_fits e) _ _ _ _ Er GO c R) as [C I].
    rewrite (take_more mx' l) in * by lia. rewrite I in *. eapply K; [reflexivity|exact C|reflexivity].
  - unfold icrc37_approve_tokens in *. destruct (run_items _ s _) as [[s1 rs]|] eqn:Er; [|destruct NT; reflexivity]. cbn [ans_batch snd unhindered] in G.
    destruct (items_fit _ (approve_fits e) _ _ _ _ Er (proj2 G) c R) as [C I]. rewrite I in *. eapply K; [reflexivity|exact C|reflexivity].
  - unfold icrc37_approve_collection in *. destruct (run_items _ s _) as [[s1 rs]|] eqn:Er; [|destruct NT; reflexivity]. cbn [ans_batch snd unhindered] in G.
    destruct (items_fit _ (approve_coll_fits e) _ _ _ _ Er (proj2 G) c R) as [C I]. rewrite I in *. eapply K; [reflexivity|exact C|reflexivity].
  - unfold icrc37_revoke_token_approvals in *. destruct args as [|a0 l0]; [destruct NT; reflexivity|].
    rewrite guard_set in *. assert (GC := guard_cfg (e_now e) (rv_tid a0) s).
    destruct (guard_sliding_window _ _ s) as [s0 []] eqn:Eg; cbn [fst snd negb] in *; [|eapply K; [reflexivity|exact GC|reflexivity]].
    set (l := a0 :: l0) in *. cbn [cfg set_cfg] in *.
    destruct (run_items _ s0 _) as [[s1 rs]|] eqn:Er; [|destruct NT; reflexivity]. cbn [snd unhindered items] in G. destruct G as [GL GO].
    assert (L := run_items_length _ _ _ _ _ Er). rewrite GL in L. destruct (take_all _ l (eq_sym L)) as [T Lm]. rewrite T in Er.
    assert (R0 := R). rewrite <- GC in R0. destruct (items_fit _ (revoke_fits e) _ _ _ _ Er GO c R0) as [C I]. rewrite GC in C, Lm.
    apply looser_limit in RV. rewrite (take_more (usize_limit (c_max_revoke c)) l) in * by lia.
    rewrite I in *. eapply K; [reflexivity|exact C|reflexivity].
  - unfold icrc37_revoke_collection_approvals in *. cbn [cfg set_cfg] in *.
    destruct (run_items _ s _) as [[s1 rs]|] eqn:Er; [|destruct NT; reflexivity]. cbn [ans_batch snd unhindered items] in G. destruct G as [GL GO].
    assert (L := run_items_length _ _ _ _ _ Er). rewrite GL in L. destruct (take_all _ args (eq_sym L)) as [T Lm]. rewrite T in Er.
    destruct (items_fit _ (revoke_coll_fits e) _ _ _ _ Er GO c R) as [C I].
    apply looser_limit in RV. rewrite (take_more (usize_limit (c_max_revoke c)) args) in * by lia.
    rewrite I in *. eapply K; [reflexivity|exact C|reflexivity].
  - unfold icrc37_transfer_from in *. destruct (run_items _ s _) as [[s1 rs]|] eqn:Er; [|destruct NT; reflexivity]. cbn [ans_batch snd unhindered] in G.
    destruct (items_fit _ (from_fits e) _ _ _ _ Er (proj2 G) c R) as [C I]. rewrite I in *. eapply K; [reflexivity|exact C|reflexivity].
  - unfold update_collection_metadata, with_permission in *. change (has_permission (set_cfg c s)) with (has_permission s) in *.
    destruct (has_permission _ _ _); [|eapply K; reflexivity]. rewrite !(with_lock_eq _ _ _ (commutes_cfg u)) in *.
    change (guards (set_cfg c s)) with (guards s) in *. destruct (decide _); [|eapply K; reflexivity]. clear K. cbn.
    split; [reflexivity|]. split; [reflexivity|]. exact (update_roomier u _ _ R).
  - unfold mint, with_permission in *. change (has_permission (set_cfg c s)) with (has_permission s) in *.
    destruct (has_permission _ _ _); [|eapply K; reflexivity]. rewrite !(with_lock_eq _ _ _ (commutes_mint e reqs)) in *.
    change (guards (set_cfg c s)) with (guards s) in *. destruct (decide _); [|eapply K; reflexivity].
    assert (X := mint_fits e reqs s c R). destruct (mint_body e reqs s) as [[s1 r]|]; [|destruct NT; reflexivity].
    destruct X as [(er & -> & X)|[C I]]; [destruct (G X)|]. rewrite I in *. destruct r; (eapply K; [reflexivity|exact C|reflexivity]).
Qed.
Print Assumptions C155_step.

(** ** Histories *)

(** As long as no limit stands in the way, nobody notices that the limits are higher. *)
Theorem C155_history h s s' :
  roomy s s' -> Forall (fun ev => unhindered (ev_op ev) (ev_ans ev)) (trace h s) ->
  map ev_ans (trace h s') = map ev_ans (trace h s) /\ roomy (run h s) (run h s').
Proof.
  revert s s'. induction h as [|[e o] h IH]; intros s s' M N; [split; [reflexivity|exact M]|].
  cbn [trace run] in *. destruct (step e o s) as [s1 a] eqn:E. apply Forall_cons_1 in N as [N1 N2]. cbn [ev_op ev_ans] in N1.
  assert (X := C155_step e o s s' M). rewrite E in X. specialize (X N1) as [A M1]. destruct (step e o s') as [s1' a'].
  cbn [fst snd map ev_ans] in *. destruct (IH s1 s1' M1 N2) as [A2 M2]. split; [congruence|exact M2].
Qed.
Print Assumptions C155_history.

(** ** Limits beyond 32 bits *)

(** A limit of 2^32 or more is a higher limit that refuses what was granted: with such a limit for memos the same transfer
    traps. *)
Definition memo_limit (n : N) (s : state) : state :=
  fst (step (from_ admin 2500000000) (OUpdateCollection
    (mkCU None None None None None None None None None (Some n) None None None None None)) s).
Theorem C155_huge_refuted :
  let e := from_ alice 3000000000 in
  let o := OTransfer [mkTransferArg (acct bob) 1 (Some [7]) None None] in
  reachable demo2 /\ reachable (memo_limit (2 ^ 32) demo2) /\
  default 1000000 (c_max_memo (cfg demo2)) <= default 1000000 (c_max_memo (cfg (memo_limit (2 ^ 32) demo2))) /\
  snd (step e o demo2) = ABatch [Ok 5] /\ snd (step e o (memo_limit (2 ^ 32) demo2)) = ATrap.
Proof.
  cbv zeta. split; [apply demo_reachable|]. split; [apply run_reachable_step, demo_reachable|].
  split; [vm_compute; discriminate|]. split; vm_compute; reflexivity.
Qed.
Print Assumptions C155_huge_refuted.

(** ** Example *)

Lemma roomy_set c s : roomier (cfg s) c -> roomy s (set_cfg c s).
Proof. intros R. split; [reflexivity|exact R]. Qed.

Lemma memo_limit_eq n s : has_permission s admin PUpdateCollectionMetadata = true -> guards s = ∅ ->
  exists c, memo_limit n s = set_cfg c s /\ c_max_memo c = Some n /\ c_max_update c = c_max_update (cfg s) /\
    c_supply_cap c = c_supply_cap (cfg s) /\ c_max_appr c = c_max_appr (cfg s) /\ c_max_revoke c = c_max_revoke (cfg s) /\
    c_atomic c = c_atomic (cfg s) /\ c_tx_window c = c_tx_window (cfg s) /\ c_drift c = c_drift (cfg s).
Proof.
  intros P G. unfold memo_limit. cbn [step]. unfold update_collection_metadata, with_permission.
  change (e_caller (from_ admin 2500000000)) with admin. rewrite P, (with_lock_eq _ _ _ (commutes_cfg _)), decide_True by exact G.
  cbn [ans_unit fst]. eexists. split; [reflexivity|]. repeat split.
Qed.

(** A limit for memos of 2000000 bytes instead of 10. *)
Example C155_example :
  let h := [(from_ alice 3000000000, OTransfer [mkTransferArg (acct bob) 1 (Some [7]) None None]);
            (from_ alice 3000000001, OTransfer [xfer carol 1]); (from_ admin 3000000002, mint3)] in
  reachable demo2 /\ reachable (memo_limit 2000000 demo2) /\ roomy demo2 (memo_limit 2000000 demo2) /\
  map ev_ans (trace h demo2) = [ABatch [Ok 5]; ABatch [Err EInvalidRecipient]; ANat 4] /\
  Forall (fun a => forall er, a = ABatch [Err er] -> ~ names_limit er) (map ev_ans (trace h demo2)).
Proof.
  cbv zeta. split; [apply demo_reachable|]. split; [apply run_reachable_step, demo_reachable|]. split.
  { assert (P : has_permission demo2 admin PUpdateCollectionMetadata = true) by (vm_compute; reflexivity).
    assert (G : guards demo2 = ∅) by (apply set_empty_size; vm_compute; reflexivity).
    assert (M : c_max_memo (cfg demo2) = Some 10) by (vm_compute; reflexivity).
    destruct (memo_limit_eq 2000000 demo2 P G) as (c & -> & E1 & E2 & E3 & E4 & E5 & E6 & E7 & E8).
    apply roomy_set. unfold roomier. rewrite E1, E2, E3, E4, E5, E6, E7, E8, M.
    split; [lia|]. split; [left; reflexivity|]. split; [right; cbn; lia|]. split; [left; reflexivity|]. split; [left; reflexivity|].
    split; [reflexivity|]. split; reflexivity. }
  match goal with |- ?x = _ /\ _ => assert (A : x = [ABatch [Ok 5]; ABatch [Err EInvalidRecipient]; ANat 4]) by (vm_compute; reflexivity) end.
  rewrite A. split; [reflexivity|].
  repeat constructor; intros er E; inversion E; subst; unfold names_limit; intros X; repeat (apply elem_of_cons in X as [X|X]; [discriminate|]);
    inversion X.
Qed.
