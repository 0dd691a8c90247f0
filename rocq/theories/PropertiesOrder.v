(** C127, C128: calls about different tokens do not interfere. *)
From Verif Require Import Base ModelPrincipal ModelState ModelIcrc7 ModelIcrc37 ModelManagement ModelLifecycle
  ModelQueries ModelStep ProofsItems ProofsManage ProofsMicro Spec ProofsCore ProofsOwner ProofsTime ProofsRate
  ProofsApprovals Scenario PropertiesBatch.
Local Open Scope N_scope.

(** ** What the statements are about *)

(** One item of a call of the token standards about one token. *)
Inductive item :=
| ITransfer (a : transfer_arg)
| IApprove (a : approve_arg)
| IRevoke (a : revoke_arg)
| ITransferFrom (a : transfer_from_arg).
Definition call (i : item) : op :=
  match i with
  | ITransfer a => OTransfer [a] | IApprove a => OApproveTokens [a] | IRevoke a => ORevokeTokens [a]
  | ITransferFrom a => OTransferFrom [a]
  end.
Definition about (i : item) : N :=
  match i with ITransfer a => ta_tid a | IApprove a => ap_tid a | IRevoke a => rv_tid a | ITransferFrom a => tf_tid a end.

(** Two states agree on the settings and on everything kept for token [t]: its record, its approvals, its recent calls. *)
Definition agree_on (t : N) (s s' : state) : Prop :=
  cfg s = cfg s' /\ tokens s !! t = tokens s' !! t /\ tok_appr s !! t = tok_appr s' !! t /\ windows s !! t = windows s' !! t.
(** A delegated transfer looks at the collection approvals of the token's owner as well. *)
Definition agree_on_owner (t : N) (s s' : state) : Prop :=
  forall tok, tokens s !! t = Some tok -> col_appr s !! akey (t_owner tok) = col_appr s' !! akey (t_owner tok).
Definition delegated (i : item) : Prop := match i with ITransferFrom _ => True | _ => False end.

(** Answers of the log that differ at most in the number of the new block. *)
Definition alike (a b : logans) : Prop := match a, b with LOk _, LOk _ => True | _, _ => a = b end.
(** The same caller at the same time, and logs that accept and refuse the same transactions. *)
Definition peers (e e' : env) : Prop :=
  e_caller e = e_caller e' /\ e_now e = e_now e' /\ forall k k' x, alike (e_log e k x) (e_log e' k' x).
Definition same_res (r r' : res N) : Prop := match r, r' with Ok _, Ok _ => True | _, _ => r = r' end.
(** Answers that differ at most in the numbers of blocks. *)
Definition same_answer (a b : answer) : Prop :=
  match a, b with ABatch l, ABatch l' => Forall2 same_res l l' | _, _ => a = b end.

(** ** Items *)
Definition rel_item (R : state -> state -> Prop) (x y : option (state * res N)) : Prop :=
  match x, y with
  | None, None => True
  | Some (s, r), Some (s', r') => R s s' /\ same_res r r'
  | _, _ => False
  end.

Lemma same_res_refl r : same_res r r.
Proof. destruct r; reflexivity. Qed.

Lemma guard_local now t s s' : agree_on t s s' ->
  snd (guard_sliding_window now t s) = snd (guard_sliding_window now t s') /\
  agree_on t (fst (guard_sliding_window now t s)) (fst (guard_sliding_window now t s')).
Proof.
  intros (C & T & A & W). unfold guard_sliding_window. rewrite W. destruct (window_calls <=? _); cbn [fst snd];
    (split; [reflexivity|]); unfold agree_on; cbn; rewrite !lookup_insert; auto.
Qed.
Lemma guard_col now t s : col_appr (fst (guard_sliding_window now t s)) = col_appr s /\ tokens (fst (guard_sliding_window now t s)) = tokens s.
Proof. unfold guard_sliding_window. destruct (window_calls <=? _); split; reflexivity. Qed.

Lemma add_local e e' x t s s' : peers e e' -> agree_on t s s' ->
  alike (snd (add_transaction e x s)) (snd (add_transaction e' x s')) /\
  agree_on t (fst (add_transaction e x s)) (fst (add_transaction e' x s')).
Proof.
  intros (_ & _ & L) H. specialize (L (lcalls s) (lcalls s') x). unfold add_transaction.
  destruct (e_log e (lcalls s) x), (e_log e' (lcalls s') x); split; auto.
Qed.
Lemma add_col e x s : col_appr (fst (add_transaction e x s)) = col_appr s /\ tokens (fst (add_transaction e x s)) = tokens s.
Proof. unfold add_transaction. destruct (e_log e (lcalls s) x); split; reflexivity. Qed.

Lemma msg_eq now t s s' : agree_on t s s' -> rate_limit_msg now t s = rate_limit_msg now t s'.
Proof. intros (_ & _ & _ & W). unfold rate_limit_msg. rewrite W. reflexivity. Qed.
Lemma msg_local now t s s' : agree_on t s s' ->
  same_res (Err (EGeneric 0 (rate_limit_msg now t s))) (Err (EGeneric 0 (rate_limit_msg now t s'))).
Proof. intros H. unfold same_res. rewrite (msg_eq now t s s' H). reflexivity. Qed.

Ltac guard_step H :=
  match goal with
  | |- context [guard_sliding_window ?n ?t ?s] =>
    match goal with
    | |- context [guard_sliding_window n t ?s'] =>
      lazymatch s' with s => fail | _ => idtac end;
      let P := fresh "P" in
      destruct (guard_local n t s s' H) as [P ?];
      destruct (guard_sliding_window n t s) as [s1 p1] eqn:G1, (guard_sliding_window n t s') as [s1' p1'] eqn:G2;
      cbn [fst snd] in *; subst p1'
    end
  end.
Ltac add_step L H :=
  match goal with
  | |- context [add_transaction ?e ?x ?s] =>
    match goal with
    | |- context [add_transaction ?e' x ?s'] =>
      lazymatch s' with s => fail | _ => idtac end;
      let A := fresh "A" in
      destruct (add_local e e' x _ s s' L H) as [A ?];
      destruct (add_transaction e x s) as [s2 ans] eqn:D1, (add_transaction e' x s') as [s2' ans'] eqn:D2;
      cbn [fst snd] in *;
      destruct ans, ans'; try discriminate A; try (injection A as A; subst)
    end
  end.

Lemma timing_local s s' c now : cfg s = cfg s' -> verify_approval_timing s c now = verify_approval_timing s' c now.
Proof. intros C. unfold verify_approval_timing. rewrite C. reflexivity. Qed.
Lemma opt_timing_local s s' c now : cfg s = cfg s' -> verify_opt_timing s c now = verify_opt_timing s' c now.
Proof. intros C. destruct c; [apply timing_local, C|reflexivity]. Qed.
Lemma memo_local s s' m : cfg s = cfg s' -> check_memo s m = check_memo s' m.
Proof. intros C. unfold check_memo. rewrite C. reflexivity. Qed.

Lemma move_local nft to t s s' : agree_on t s s' -> agree_on t (move_token nft to s) (move_token nft to s').
Proof.
  intros (C & T & A & W). unfold move_token, agree_on. cbn. splits; auto.
  destruct (decide (t_id nft = t)) as [<-|N]; [rewrite !lookup_insert; reflexivity|rewrite !lookup_insert_ne by exact N; exact T].
Qed.

Lemma transfer_local e e' s s' a : peers e e' -> agree_on (ta_tid a) s s' ->
  rel_item (agree_on (ta_tid a)) (transfer_nft e s a) (transfer_nft e' s' a).
Proof.
  intros L H. pose proof L as (Lc & Ln & _). unfold transfer_nft. rewrite <- Lc, <- Ln. guard_step H.
  destruct p1; cbn [negb]; [|split; [assumption|apply msg_local; assumption]].
  match goal with H1 : agree_on _ s1 s1' |- _ => pose proof H1 as (C & T & A & W) end.
  rewrite <- T. destruct (tokens s1 !! ta_tid a) as [nft|]; [|split; [assumption|reflexivity]].
  rewrite <- (memo_local s1 s1' _ C). destruct (check_memo s1 (ta_memo a)) as [[]|]; [|split; [assumption|reflexivity]|exact I].
  destruct (_ || _ || _); [split; [assumption|reflexivity]|]. rewrite <- C.
  destruct (u64_setting (c_drift (cfg s1)) default_drift) as [d|]; [|exact I].
  destruct (add64 _ d <? _); [split; [assumption|reflexivity]|].
  destruct (u64_setting (c_tx_window (cfg s1)) default_tx_window) as [w|]; [|exact I].
  destruct (_ <? sat_sub _ _); [split; [assumption|reflexivity]|].
  match goal with H1 : agree_on _ s1 s1' |- _ => add_step L H1 end;
    (split; [try assumption; apply move_local; assumption|reflexivity]).
Qed.

Lemma approve_local e e' s s' a : peers e e' -> agree_on (ap_tid a) s s' ->
  rel_item (agree_on (ap_tid a)) (approve_token e s a) (approve_token e' s' a).
Proof.
  intros L H. pose proof L as (Lc & Ln & _). unfold approve_token. rewrite <- Lc, <- Ln. guard_step H.
  destruct p1; cbn [negb]; [|split; [assumption|apply msg_local; assumption]].
  match goal with H1 : agree_on _ s1 s1' |- _ => pose proof H1 as (C & T & A & W) end.
  rewrite <- (timing_local s1 s1' _ _ C). destruct (verify_approval_timing s1 _ _); [|split; [assumption|reflexivity]..].
  unfold owner_of. rewrite <- T, <- A, <- C. destruct (t_owner <$> tokens s1 !! ap_tid a) as [ow|]; [|split; [assumption|reflexivity]].
  destruct (negb _); [split; [assumption|reflexivity]|]. destruct (acc_eqb _ _); [split; [assumption|reflexivity]|].
  match goal with |- context [if ?b then Some (s1, _) else _] => destruct b; [split; [assumption|reflexivity]|] end.
  match goal with H1 : agree_on _ s1 s1' |- _ => add_step L H1 end; try (split; [assumption|reflexivity]).
  destruct (ap_tid a <? two64); [|exact I]. split; [|reflexivity].
  match goal with H2 : agree_on _ s2 s2' |- _ => destruct H2 as (C2 & T2 & A2 & W2) end.
  unfold agree_on. cbn. rewrite !lookup_insert, A2. auto.
Qed.

Lemma revoke_item_local e e' s s' a : peers e e' -> agree_on (rv_tid a) s s' ->
  rel_item (agree_on (rv_tid a)) (revoke_token_approvals e s a) (revoke_token_approvals e' s' a).
Proof.
  intros L H. pose proof L as (Lc & Ln & _). unfold revoke_token_approvals. rewrite <- Lc, <- Ln.
  pose proof H as (C & T & A & W).
  rewrite <- (opt_timing_local s s' _ _ C). destruct (verify_opt_timing s _ _); [|split; [assumption|reflexivity]..].
  unfold owner_of. rewrite <- T, <- A. destruct (t_owner <$> tokens s !! rv_tid a) as [ow|]; [|split; [assumption|reflexivity]].
  destruct (negb _); [split; [assumption|reflexivity]|].
  destruct (tok_appr s !! rv_tid a) as [m|]; [|split; [assumption|reflexivity]].
  add_step L H; try (split; [assumption|reflexivity]). split; [|reflexivity].
  match goal with H2 : agree_on _ s2 s2' |- _ => destruct H2 as (C2 & T2 & A2 & W2) end.
  unfold agree_on. cbn. rewrite !lookup_insert. auto.
Qed.

(** The same with the collection approvals under one key. *)
Definition agree_with (t : N) (k : acckey) (s s' : state) : Prop := agree_on t s s' /\ col_appr s !! k = col_appr s' !! k.

Lemma check_token_local now t sp k s s' : agree_with t k s s' ->
  snd (check_token_approval now t sp s) = snd (check_token_approval now t sp s') /\
  agree_with t k (fst (check_token_approval now t sp s)) (fst (check_token_approval now t sp s')).
Proof.
  intros H. pose proof H as ((C & T & A & W) & K). unfold check_token_approval. rewrite <- A.
  destruct (tok_appr s !! t) as [m|]; [|split; [reflexivity|exact H]].
  destruct (m !! akey sp) as [[? ap]|]; [|split; [reflexivity|exact H]].
  destruct (a_expires ap) as [x|]; [|split; [reflexivity|exact H]].
  destruct (x <=? now); [|split; [reflexivity|exact H]].
  split; [reflexivity|]. split; [|exact K]. unfold agree_on. cbn. rewrite !lookup_insert. auto.
Qed.
Lemma check_collection_local now t ow sp s s' : agree_with t (akey ow) s s' ->
  snd (check_collection_approval now ow sp s) = snd (check_collection_approval now ow sp s') /\
  agree_with t (akey ow) (fst (check_collection_approval now ow sp s)) (fst (check_collection_approval now ow sp s')).
Proof.
  intros H. pose proof H as ((C & T & A & W) & K). unfold check_collection_approval. rewrite <- K.
  destruct (col_appr s !! akey ow) as [m|]; [|split; [reflexivity|exact H]].
  destruct (m !! akey sp) as [[? ap]|]; [|split; [reflexivity|exact H]].
  destruct (a_expires ap) as [x|]; [|split; [reflexivity|exact H]].
  destruct (x <=? now); [|split; [reflexivity|exact H]].
  split; [reflexivity|]. split; [unfold agree_on; cbn; auto|]. cbn. rewrite !lookup_insert. reflexivity.
Qed.

Lemma transfer_from_local e e' s s' a nft : peers e e' -> tokens s !! tf_tid a = Some nft ->
  agree_with (tf_tid a) (akey (t_owner nft)) s s' ->
  rel_item (agree_with (tf_tid a) (akey (t_owner nft))) (transfer_from e s a) (transfer_from e' s' a).
Proof.
  intros L Tk [H K]. pose proof L as (Lc & Ln & _). unfold transfer_from. rewrite <- Lc, <- Ln.
  pose proof (guard_col (e_now e) (tf_tid a) s) as [K1 T1]. pose proof (guard_col (e_now e) (tf_tid a) s') as [K1' _].
  guard_step H.
  assert (B1 : agree_with (tf_tid a) (akey (t_owner nft)) s1 s1') by (split; [assumption|rewrite K1, K1'; exact K]).
  destruct p1; cbn [negb]; [|split; [exact B1|apply msg_local; apply B1]].
  destruct B1 as [(C & T & A & W) K2]. pose proof (conj (conj C (conj T (conj A W))) K2 : agree_with _ _ s1 s1') as B1.
  rewrite <- (opt_timing_local s1 s1' _ _ C). destruct (verify_opt_timing s1 _ _); [|split; [exact B1|reflexivity]..].
  rewrite <- T, T1, Tk.
  destruct (acc_eqb (tf_from a) _); [split; [exact B1|reflexivity]|].
  destruct (acc_eqb (tf_to a) _); [split; [exact B1|reflexivity]|].
  set (sp := mkAcc (e_caller e) (tf_spender_sub a)).
  destruct (check_token_local (e_now e) (tf_tid a) sp _ s1 s1' B1) as [P2 B2].
  destruct (check_token_approval (e_now e) (tf_tid a) sp s1) as [s3 h], (check_token_approval (e_now e) (tf_tid a) sp s1') as [s3' h'].
  cbn [fst snd] in P2, B2. subst h'.
  destruct (check_collection_local (e_now e) (tf_tid a) (t_owner nft) sp s3 s3' B2) as [P3 B3].
  destruct (check_collection_approval (e_now e) (t_owner nft) sp s3) as [s4 c], (check_collection_approval (e_now e) (t_owner nft) sp s3') as [s4' c'].
  cbn [fst snd] in P3, B3. subst c'.
  destruct (acc_eqb (t_owner nft) (tf_from a)) eqn:Eo; cbn [negb orb]; [|split; [exact B3|reflexivity]].
  destruct (_ && _); [split; [exact B3|reflexivity]|].
  pose proof (add_col e (transfer_from_tx (e_now e) a sp) s4) as [K5 _]. pose proof (add_col e' (transfer_from_tx (e_now e) a sp) s4') as [K5' _].
  destruct B3 as [B3 K3]. add_step L B3; try (split; [split; [assumption|rewrite K5, K5'; exact K3]|reflexivity]).
  split; [|reflexivity]. apply bool_decide_eq_true in Eo.
  match goal with H2 : agree_on _ s2 s2' |- _ => pose proof (move_local nft (tf_to a) _ _ _ H2) as (C2 & T2 & A2 & W2) end.
  split; [|cbn; rewrite Eo, !lookup_delete; reflexivity].
  unfold agree_on in *. cbn in *. rewrite !lookup_delete. auto.
Qed.

(** An unknown token: nothing but its recent calls matters. *)
Lemma transfer_from_local_none e e' s s' a : peers e e' -> tokens s !! tf_tid a = None -> agree_on (tf_tid a) s s' ->
  rel_item (agree_on (tf_tid a)) (transfer_from e s a) (transfer_from e' s' a).
Proof.
  intros L Tk H. pose proof L as (Lc & Ln & _). unfold transfer_from. rewrite <- Lc, <- Ln.
  pose proof (guard_col (e_now e) (tf_tid a) s) as [_ T1]. guard_step H.
  destruct p1; cbn [negb]; [|split; [assumption|apply msg_local; assumption]].
  match goal with H1 : agree_on _ s1 s1' |- _ => pose proof H1 as (C & T & A & W) end.
  rewrite <- (opt_timing_local s1 s1' _ _ C). destruct (verify_opt_timing s1 _ _); [|split; [assumption|reflexivity]..].
  rewrite <- T, T1, Tk. split; [assumption|reflexivity].
Qed.

(** ** Calls *)
Lemma batch_one (R : state -> state -> Prop) x y s s' : R s s' ->
  rel_item R x y ->
  same_answer (snd (ans_batch s (match x with None => None | Some (s1, r) => Some (s1, [r]) end)))
              (snd (ans_batch s' (match y with None => None | Some (s1, r) => Some (s1, [r]) end))) /\
  R (fst (ans_batch s (match x with None => None | Some (s1, r) => Some (s1, [r]) end)))
    (fst (ans_batch s' (match y with None => None | Some (s1, r) => Some (s1, [r]) end))).
Proof.
  intros H. destruct x as [[s1 r]|], y as [[s1' r']|]; cbn; try contradiction.
  - intros [G Hr]. split; [constructor; [exact Hr|constructor]|exact G].
  - intros _. split; [reflexivity|exact H].
Qed.
Lemma run_one {A} (f : state -> A -> option (state * res N)) s a :
  run_items f s [a] = match f s a with None => None | Some (s1, r) => Some (s1, [r]) end.
Proof. cbn. destruct (f s a) as [[s1 r]|]; reflexivity. Qed.
Lemma take_one {A} n (a : A) : take_n n [a] = if n =? 0 then [] else [a].
Proof.
  unfold take_n. change (nlen [a]) with 1. destruct (n =? 0) eqn:E.
  - apply N.eqb_eq in E. subst n. reflexivity.
  - apply N.eqb_neq in E. rewrite N.min_r by lia. reflexivity.
Qed.

Lemma call_local_plain e e' s s' i : peers e e' -> ~ delegated i -> agree_on (about i) s s' ->
  same_answer (snd (step e (call i) s)) (snd (step e' (call i) s')) /\
  agree_on (about i) (fst (step e (call i) s)) (fst (step e' (call i) s')).
Proof.
  intros L D H. pose proof L as (Lc & Ln & _). pose proof H as (C & _). destruct i as [a|a|a|a]; cbn [call about step] in *.
  - unfold icrc7_transfer. rewrite <- C, <- Lc.
    destruct (usize_try _) as [mx|]; [|split; [reflexivity|exact H]].
    destruct (_ && _); [split; [constructor; [reflexivity|constructor]|exact H]|].
    destruct (bool_decide _); [split; [constructor; [reflexivity|constructor]|exact H]|].
    rewrite take_one. destruct (mx =? 0); [split; [constructor|exact H]|]. rewrite !run_one.
    apply (batch_one _ _ _ _ _ H), transfer_local; assumption.
  - unfold icrc37_approve_tokens. rewrite !run_one. apply (batch_one _ _ _ _ _ H), approve_local; assumption.
  - unfold icrc37_revoke_token_approvals. rewrite <- Ln. guard_step H.
    destruct p1; cbn [negb]; [|split; [cbn [snd]; match goal with B : agree_on _ s1 s1' |- _ => rewrite (msg_eq (e_now e) _ _ _ B) end; reflexivity|assumption]].
    match goal with H1 : agree_on _ s1 s1' |- _ => pose proof H1 as (C1 & _) end. rewrite <- C1, take_one.
    destruct (_ =? 0); [split; [constructor|assumption]|]. rewrite !run_one.
    match goal with H1 : agree_on _ s1 s1' |- _ => pose proof (revoke_item_local e e' s1 s1' a L H1) as R end.
    destruct (revoke_token_approvals e s1 a) as [[x r]|], (revoke_token_approvals e' s1' a) as [[x' r']|]; cbn in R |- *; try contradiction.
    + destruct R as [R1 R2]. split; [constructor; [exact R2|constructor]|exact R1].
    + split; [reflexivity|exact H].
  - destruct (D I).
Qed.

Definition owner_key (s : state) (t : N) : option acckey := (fun tok => akey (t_owner tok)) <$> tokens s !! t.

Lemma call_local e e' s s' i : peers e e' -> agree_on (about i) s s' ->
  (delegated i -> agree_on_owner (about i) s s') ->
  same_answer (snd (step e (call i) s)) (snd (step e' (call i) s')) /\
  agree_on (about i) (fst (step e (call i) s)) (fst (step e' (call i) s')) /\
  (delegated i -> forall k, owner_key s (about i) = Some k ->
     col_appr (fst (step e (call i) s)) !! k = col_appr (fst (step e' (call i) s')) !! k).
Proof.
  intros L H Ho.
  assert (P : ~ delegated i -> same_answer (snd (step e (call i) s)) (snd (step e' (call i) s')) /\
    agree_on (about i) (fst (step e (call i) s)) (fst (step e' (call i) s'))) by (intros D; apply call_local_plain; assumption).
  destruct i as [a|a|a|a]; [destruct (P (fun x => x)) as [G1 G2]; split; [exact G1|]; split; [exact G2|]; intros []..|]. clear P.
  cbn [call about step] in *. unfold icrc37_transfer_from. rewrite !run_one.
  destruct (tokens s !! tf_tid a) as [nft|] eqn:T.
  - pose proof (Ho I nft T) as K.
    pose proof (conj H K : agree_with _ _ s s') as B.
    destruct (batch_one _ _ _ s s' B (transfer_from_local e e' s s' a nft L T B)) as [G1 [G2 G3]].
    split; [exact G1|]. split; [exact G2|]. intros _ k Hk. unfold owner_key in Hk. rewrite T in Hk. injection Hk as <-. exact G3.
  - destruct (batch_one _ _ _ s s' H (transfer_from_local_none e e' s s' a L T H)) as [G1 G2].
    split; [exact G1|]. split; [exact G2|]. intros _ k Hk. unfold owner_key in Hk. rewrite T in Hk. discriminate.
Qed.

(** What a call leaves alone. *)
Definition untouched (t : N) (K : acckey -> Prop) (s s' : state) : Prop :=
  cfg s' = cfg s /\ metas s' = metas s /\
  (forall t', t' <> t -> tokens s' !! t' = tokens s !! t' /\ tok_appr s' !! t' = tok_appr s !! t' /\ windows s' !! t' = windows s !! t') /\
  (forall k, ~ K k -> col_appr s' !! k = col_appr s !! k).
Lemma untouched_refl t K s : untouched t K s s.
Proof. unfold untouched. splits; auto. Qed.
Lemma untouched_trans t K s1 s2 s3 : untouched t K s1 s2 -> untouched t K s2 s3 -> untouched t K s1 s3.
Proof.
  intros (A1 & A2 & A3 & A4) (B1 & B2 & B3 & B4). unfold untouched. rewrite B1, B2. splits; auto.
  - intros t' N. destruct (A3 t' N) as (? & ? & ?), (B3 t' N) as (? & ? & ?). splits; congruence.
  - intros k N. rewrite B4 by exact N. auto.
Qed.
Lemma guard_untouched now t K s : untouched t K s (fst (guard_sliding_window now t s)).
Proof.
  unfold guard_sliding_window. destruct (window_calls <=? _); unfold untouched; cbn; splits; auto; intros t' N; splits; auto;
    rewrite lookup_insert_ne by congruence; reflexivity.
Qed.
Lemma add_untouched e x t K s : untouched t K s (fst (add_transaction e x s)).
Proof. unfold add_transaction. destruct (e_log e (lcalls s) x); unfold untouched; cbn; splits; auto. Qed.
Lemma move_untouched nft to t K s : t_id nft = t -> untouched t K s (move_token nft to s).
Proof.
  intros <-. unfold move_token, untouched. cbn. splits; auto. intros t' N. splits; auto. rewrite lookup_insert_ne by congruence. reflexivity.
Qed.
Lemma tok_appr_untouched t K s x : untouched t K s (set_tok_appr (<[t := x]> (tok_appr s)) s).
Proof. unfold untouched. cbn. splits; auto. intros t' N. splits; auto. rewrite lookup_insert_ne by congruence. reflexivity. Qed.

Definition frame_item (t : N) (K : acckey -> Prop) (s : state) (x : option (state * res N)) : Prop :=
  match x with Some (s', _) => untouched t K s s' | None => True end.

Lemma transfer_frame e s a K : wf s -> frame_item (ta_tid a) K s (transfer_nft e s a).
Proof.
  intros W. unfold transfer_nft. pose proof (guard_untouched (e_now e) (ta_tid a) K s) as G.
  pose proof (guard_col (e_now e) (ta_tid a) s) as [_ T1].
  destruct (guard_sliding_window (e_now e) (ta_tid a) s) as [s1 []]; cbn [fst negb] in *; [|exact G].
  destruct (tokens s1 !! ta_tid a) as [nft|] eqn:T; [|exact G].
  destruct (check_memo s1 _) as [[]|]; [|exact G|exact I]. destruct (_ || _ || _); [exact G|].
  destruct (u64_setting _ _) as [d|]; [|exact I]. destruct (_ <? _); [exact G|].
  destruct (u64_setting _ _) as [w|]; [|exact I]. destruct (_ <? _); [exact G|].
  match goal with |- context [add_transaction e ?x s1] => pose proof (add_untouched e x (ta_tid a) K s1) as A;
    destruct (add_transaction e x s1) as [s2 []] end; cbn [fst frame_item] in *; try (eapply untouched_trans; eassumption).
  eapply untouched_trans; [exact G|]. eapply untouched_trans; [exact A|]. apply move_untouched. rewrite T1 in T. apply (wf_id s W _ _ T).
Qed.
Lemma approve_frame e s a K : frame_item (ap_tid a) K s (approve_token e s a).
Proof.
  unfold approve_token. pose proof (guard_untouched (e_now e) (ap_tid a) K s) as G.
  destruct (guard_sliding_window (e_now e) (ap_tid a) s) as [s1 []]; cbn [fst negb] in *; [|exact G].
  destruct (verify_approval_timing s1 _ _); [|exact G..]. destruct (owner_of s1 _); [|exact G].
  destruct (negb _); [exact G|]. destruct (acc_eqb _ _); [exact G|].
  match goal with |- context [if ?b then Some (s1, _) else _] => destruct b; [exact G|] end.
  match goal with |- context [add_transaction e ?x s1] => pose proof (add_untouched e x (ap_tid a) K s1) as A;
    destruct (add_transaction e x s1) as [s2 []] end; cbn [fst frame_item] in *; try (eapply untouched_trans; eassumption).
  destruct (_ <? _); [|exact I]. eapply untouched_trans; [exact G|]. eapply untouched_trans; [exact A|]. apply tok_appr_untouched.
Qed.
Lemma revoke_frame e s a K : frame_item (rv_tid a) K s (revoke_token_approvals e s a).
Proof.
  unfold revoke_token_approvals. pose proof (untouched_refl (rv_tid a) K s) as G.
  destruct (verify_opt_timing s _ _); [|exact G..]. destruct (owner_of s _); [|exact G].
  destruct (negb _); [exact G|]. destruct (tok_appr s !! rv_tid a) as [m|]; [|exact G].
  match goal with |- context [add_transaction e ?x s] => pose proof (add_untouched e x (rv_tid a) K s) as A;
    destruct (add_transaction e x s) as [s2 []] end; cbn [fst frame_item] in *; try exact A.
  eapply untouched_trans; [exact A|]. apply tok_appr_untouched.
Qed.
Lemma check_token_untouched now t sp K s : untouched t K s (fst (check_token_approval now t sp s)).
Proof.
  unfold check_token_approval. destruct (tok_appr s !! t) as [m|]; [|apply untouched_refl].
  destruct (m !! akey sp) as [[? ap]|]; [|apply untouched_refl]. destruct (a_expires ap) as [x|]; [|apply untouched_refl].
  destruct (x <=? now); [apply tok_appr_untouched|apply untouched_refl].
Qed.
Lemma col_appr_untouched t (K : acckey -> Prop) k s m : K k -> m = <[k := default ∅ (m !! k)]> (col_appr s) \/ m = delete k (col_appr s) ->
  untouched t K s (set_col_appr m s).
Proof.
  intros Hk Hm. unfold untouched. cbn. splits; auto. intros k' N. assert (k' <> k) by (intros ->; auto).
  destruct Hm as [-> | ->]; [rewrite lookup_insert_ne by congruence; reflexivity|rewrite lookup_delete_ne by congruence; reflexivity].
Qed.
Lemma check_collection_untouched now t ow sp (K : acckey -> Prop) s : K (akey ow) -> untouched t K s (fst (check_collection_approval now ow sp s)).
Proof.
  intros Hk. unfold check_collection_approval. destruct (col_appr s !! akey ow) as [m|]; [|apply untouched_refl].
  destruct (m !! akey sp) as [[? ap]|]; [|apply untouched_refl]. destruct (a_expires ap) as [x|]; [|apply untouched_refl].
  destruct (x <=? now); [|apply untouched_refl]. apply (col_appr_untouched t K (akey ow)); [exact Hk|].
  left. rewrite lookup_insert. reflexivity.
Qed.
Lemma transfer_from_frame e s a (K : acckey -> Prop) : wf s -> (forall k, owner_key s (tf_tid a) = Some k -> K k) ->
  frame_item (tf_tid a) K s (transfer_from e s a).
Proof.
  intros W Hk. unfold transfer_from. pose proof (guard_untouched (e_now e) (tf_tid a) K s) as G.
  pose proof (guard_col (e_now e) (tf_tid a) s) as [_ T1].
  destruct (guard_sliding_window (e_now e) (tf_tid a) s) as [s1 []]; cbn [fst negb] in *; [|exact G].
  destruct (verify_opt_timing s1 _ _); [|exact G..].
  destruct (tokens s1 !! tf_tid a) as [nft|] eqn:T; [|exact G]. rewrite T1 in T.
  assert (Hk' : K (akey (t_owner nft))) by (apply Hk; unfold owner_key; rewrite T; reflexivity).
  destruct (acc_eqb _ _); [exact G|]. destruct (acc_eqb _ _); [exact G|].
  set (sp := mkAcc (e_caller e) (tf_spender_sub a)).
  pose proof (check_token_untouched (e_now e) (tf_tid a) sp K s1) as G2.
  destruct (check_token_approval (e_now e) (tf_tid a) sp s1) as [s2 h]. cbn [fst] in G2.
  pose proof (check_collection_untouched (e_now e) (tf_tid a) (t_owner nft) sp K s2 Hk') as G3.
  destruct (check_collection_approval (e_now e) (t_owner nft) sp s2) as [s3 c]. cbn [fst] in G3.
  pose proof (untouched_trans _ _ _ _ _ G (untouched_trans _ _ _ _ _ G2 G3)) as G'.
  destruct (acc_eqb (t_owner nft) (tf_from a)) eqn:Eo; cbn [negb orb]; [|exact G']. destruct (_ && _); [exact G'|].
  match goal with |- context [add_transaction e ?x s3] => pose proof (add_untouched e x (tf_tid a) K s3) as A;
    destruct (add_transaction e x s3) as [s4 []] end; cbn [fst frame_item] in *; try (eapply untouched_trans; eassumption).
  apply bool_decide_eq_true in Eo.
  eapply untouched_trans; [exact G'|]. eapply untouched_trans; [exact A|].
  eapply untouched_trans; [apply (move_untouched nft (tf_to a) _ K), (wf_id s W _ _ T)|].
  eapply (untouched_trans _ _ _ (set_tok_appr (delete (tf_tid a) (tok_appr (move_token nft (tf_to a) s4))) (move_token nft (tf_to a) s4))).
  - unfold untouched. cbn. splits; auto. intros t' N. splits; auto. rewrite lookup_delete_ne by congruence. reflexivity.
  - apply (col_appr_untouched _ K (akey (tf_from a))); [rewrite <- Eo; exact Hk'|right; reflexivity].
Qed.

Lemma ans_batch_frame t K s x : frame_item t K s x ->
  untouched t K s (fst (ans_batch s (match x with None => None | Some (s1, r) => Some (s1, [r]) end))).
Proof. destruct x as [[s1 r]|]; cbn; [auto|intros _; apply untouched_refl]. Qed.

Lemma call_frame e s i (K : acckey -> Prop) : wf s -> (delegated i -> forall k, owner_key s (about i) = Some k -> K k) ->
  untouched (about i) K s (fst (step e (call i) s)).
Proof.
  intros W Hk. destruct i as [a|a|a|a]; cbn [call about step delegated] in *.
  - unfold icrc7_transfer. destruct (usize_try _) as [mx|]; [|apply untouched_refl]. destruct (_ && _); [apply untouched_refl|].
    destruct (bool_decide _); [apply untouched_refl|]. rewrite take_one. destruct (mx =? 0); [apply untouched_refl|].
    rewrite run_one. apply ans_batch_frame, transfer_frame, W.
  - unfold icrc37_approve_tokens. rewrite run_one. apply ans_batch_frame, approve_frame.
  - unfold icrc37_revoke_token_approvals. pose proof (guard_untouched (e_now e) (rv_tid a) K s) as G.
    destruct (guard_sliding_window (e_now e) (rv_tid a) s) as [s1 []]; cbn [fst negb] in *; [|exact G].
    rewrite take_one. destruct (_ =? 0); [exact G|]. rewrite run_one.
    pose proof (revoke_frame e s1 a K) as F. destruct (revoke_token_approvals e s1 a) as [[x r]|]; cbn in *; [|apply untouched_refl].
    eapply untouched_trans; eassumption.
  - unfold icrc37_transfer_from. rewrite run_one. apply ans_batch_frame, transfer_from_frame; auto.
Qed.

(** ** C127: what happens to a token depends only on what is kept for it *)

Theorem C127_depends_on_its_token e e' s s' i :
  peers e e' -> agree_on (about i) s s' -> (delegated i -> agree_on_owner (about i) s s') ->
  same_answer (snd (step e (call i) s)) (snd (step e' (call i) s')) /\
  agree_on (about i) (fst (step e (call i) s)) (fst (step e' (call i) s')).
Proof. intros L H Ho. destruct (call_local e e' s s' i L H Ho) as (G1 & G2 & _). auto. Qed.
Print Assumptions C127_depends_on_its_token.

(** ** C128: the order of calls about different tokens does not matter *)

(** The two calls do not both rely on the collection approvals of one account. *)
Definition apart (s : state) (i j : item) : Prop :=
  about i <> about j /\
  (delegated i -> delegated j -> forall k, owner_key s (about i) = Some k -> owner_key s (about j) <> Some k).

Lemma after_other e s i j : wf s -> apart s i j ->
  let s' := fst (step e (call j) s) in
  agree_on (about i) s s' /\ (delegated i -> agree_on_owner (about i) s s') /\ tokens s' !! about i = tokens s !! about i.
Proof.
  intros W [N D]. cbv zeta.
  pose (K := fun k => delegated j /\ owner_key s (about j) = Some k).
  destruct (call_frame e s j K W) as (C & _ & F & Fc); [intros Dj k E; split; assumption|].
  destruct (F (about i) N) as (F1 & F2 & F3). splits.
  - unfold agree_on. splits; congruence.
  - intros Di tok T. symmetry. apply Fc. intros [Dj E]. apply (D Di Dj (akey (t_owner tok))); [|exact E].
    unfold owner_key. rewrite T. reflexivity.
  - exact F1.
Qed.
Lemma apart_sym s i j : apart s i j -> apart s j i.
Proof. intros [N D]. split; [congruence|]. intros Dj Di k E E'. exact (D Di Dj k E' E). Qed.

Theorem C128_order_partial e1 e2 s i j :
  reachable s -> peers e1 e1 -> peers e2 e2 -> apart s i j ->
  let s1 := fst (step e1 (call i) s) in let s2 := fst (step e2 (call j) s) in
  let s12 := fst (step e2 (call j) s1) in let s21 := fst (step e1 (call i) s2) in
  same_answer (snd (step e1 (call i) s)) (snd (step e1 (call i) s2)) /\
  same_answer (snd (step e2 (call j) s1)) (snd (step e2 (call j) s)) /\
  owners s12 = owners s21 /\
  (forall t sp, token_approval s12 t sp = token_approval s21 t sp) /\
  (forall ow sp, collection_approval s12 ow sp = collection_approval s21 ow sp) /\
  (forall t k, meta_of s12 t k = meta_of s21 t k).
Proof.
  intros R L1 L2 Ap. cbv zeta. pose proof (reachable_wf s R) as W. pose proof (apart_sym _ _ _ Ap) as Ap'.
  destruct (after_other e2 s i j W Ap) as (Ai & Oi & Ti). destruct (after_other e1 s j i W Ap') as (Aj & Oj & Tj).
  destruct (call_local e1 e1 s _ i L1 Ai Oi) as (Ans1 & V1 & K1). destruct (call_local e2 e2 s _ j L2 Aj Oj) as (Ans2 & V2 & K2).
  set (s1 := fst (step e1 (call i) s)) in *. set (s2 := fst (step e2 (call j) s)) in *.
  assert (W1 : wf s1) by (apply step_wf; exact W). assert (W2 : wf s2) by (apply step_wf; exact W).
  pose (Ki := fun k => delegated i /\ owner_key s (about i) = Some k).
  pose (Kj := fun k => delegated j /\ owner_key s (about j) = Some k).
  assert (Ok2 : owner_key s2 (about i) = owner_key s (about i)) by (unfold owner_key; rewrite Ti; reflexivity).
  assert (Ok1 : owner_key s1 (about j) = owner_key s (about j)) by (unfold owner_key; rewrite Tj; reflexivity).
  destruct (call_frame e1 s i Ki W) as (C1 & M1 & F1 & Fc1); [split; assumption|].
  destruct (call_frame e2 s j Kj W) as (C2 & M2 & F2 & Fc2); [split; assumption|].
  destruct (call_frame e2 s1 j Kj W1) as (C12 & M12 & F12 & Fc12); [intros; split; congruence|].
  destruct (call_frame e1 s2 i Ki W2) as (C21 & M21 & F21 & Fc21); [intros; split; congruence|].
  fold s1 in C1, M1, F1, Fc1. fold s2 in C2, M2, F2, Fc2.
  set (s12 := fst (step e2 (call j) s1)) in *. set (s21 := fst (step e1 (call i) s2)) in *.
  destruct Ap as [N D].
  assert (V : forall t, tokens s12 !! t = tokens s21 !! t /\ tok_appr s12 !! t = tok_appr s21 !! t).
  { intros t. destruct (decide (t = about i)) as [->|Ni].
    - destruct (F12 (about i) N) as (-> & -> & _). destruct V1 as (_ & V1 & V1' & _). auto.
    - destruct (decide (t = about j)) as [->|Nj].
      + destruct (F21 (about j)) as (-> & -> & _); [congruence|]. destruct V2 as (_ & V2 & V2' & _). auto.
      + destruct (F12 t Nj) as (-> & -> & _), (F21 t Ni) as (-> & -> & _), (F1 t Ni) as (-> & -> & _), (F2 t Nj) as (-> & -> & _). auto. }
  splits.
  - exact Ans1.
  - destruct (snd (step e2 (call j) s)) eqn:E1, (snd (step e2 (call j) s1)) eqn:E2; cbn in Ans2 |- *; try congruence.
    clear -Ans2. induction Ans2 as [|x y l l' H _ IH]; constructor; [destruct x, y; cbn in *; congruence|exact IH].
  - apply map_eq. intros t. unfold owners. rewrite !lookup_fmap. destruct (V t) as [-> _]. reflexivity.
  - intros t sp. unfold token_approval. destruct (V t) as [_ ->]. reflexivity.
  - assert (Kc : forall k, col_appr s12 !! k = col_appr s21 !! k); [|intros ow sp; unfold collection_approval; rewrite Kc; reflexivity].
    intros k. destruct (decide (owner_key s (about i) = Some k)) as [Ei|Ni].
    + destruct i as [a|a|a|a]; cbn [delegated about] in *.
      4: { rewrite Fc12; [apply (K1 I k Ei)|]. intros [Dj Ej]. exact (D I Dj k Ei Ej). }
      all: rewrite (Fc21 k) by (intros [[] _]).
      all: destruct (decide (owner_key s (about j) = Some k)) as [Ej|Nj];
        [|rewrite (Fc12 k) by (intros [_ ?]; contradiction); rewrite (Fc1 k) by (intros [[] _]); rewrite (Fc2 k) by (intros [_ ?]; contradiction); reflexivity].
      all: destruct j as [b|b|b|b]; cbn [delegated about] in *;
        try (rewrite (Fc12 k) by (intros [[] _]); rewrite (Fc1 k) by (intros [[] _]); rewrite (Fc2 k) by (intros [[] _]); reflexivity).
      all: symmetry; apply (K2 I k Ej).
    + rewrite (Fc21 k) by (intros [_ ?]; contradiction). destruct (decide (owner_key s (about j) = Some k)) as [Ej|Nj].
      * destruct j as [b|b|b|b]; cbn [delegated about] in *;
          try (rewrite (Fc12 k) by (intros [[] _]); rewrite (Fc1 k) by (intros [_ ?]; contradiction); rewrite (Fc2 k) by (intros [[] _]); reflexivity).
        symmetry. apply (K2 I k Ej).
      * rewrite (Fc12 k) by (intros [_ ?]; contradiction). rewrite (Fc1 k) by (intros [_ ?]; contradiction).
        rewrite (Fc2 k) by (intros [_ ?]; contradiction). reflexivity.
  - intros t k. unfold meta_of. rewrite M12, M1, M21, M2. reflexivity.
Qed.
Print Assumptions C128_order_partial.

(** The whole statement, without the proviso on delegated transfers, fails: a delegated transfer deletes every collection
    approval of the owner (C26), so of two delegated transfers that one approval allows only the first is carried out. *)
Theorem C128_order_refuted :
  exists e s i j, reachable s /\ peers e e /\ about i <> about j /\
    let s1 := fst (step e (call i) s) in let s2 := fst (step e (call j) s) in
    ~ same_answer (snd (step e (call j) s1)) (snd (step e (call j) s)) /\
    owners (fst (step e (call j) s1)) <> owners (fst (step e (call i) s2)).
Proof.
  exists (from_ carol 3000000000), demo2, (ITransferFrom (tfrom alice carol 1)), (ITransferFrom (tfrom alice carol 2)).
  split; [apply demo_reachable|]. split; [split; [reflexivity|split; [reflexivity|intros; exact I]]|].
  split; [discriminate|]. cbv zeta. split.
  - assert (A : snd (step (from_ carol 3000000000) (call (ITransferFrom (tfrom alice carol 2)))
                  (fst (step (from_ carol 3000000000) (call (ITransferFrom (tfrom alice carol 1))) demo2)))
                = ABatch [Err EUnauthorized]) by (vm_compute; reflexivity).
    assert (B : snd (step (from_ carol 3000000000) (call (ITransferFrom (tfrom alice carol 2))) demo2) = ABatch [Ok 5])
      by (vm_compute; reflexivity).
    rewrite A, B. intros F. inversion F as [|x y l l' H _ E1 E2]. discriminate H.
  - intros E. apply (f_equal (lookup 1)) in E. revert E. vm_compute. discriminate.
Qed.
Print Assumptions C128_order_refuted.

Lemma agree_without t t' s : t <> t' -> agree_on t s (set_tokens (delete t' (tokens s)) s).
Proof. intros N. unfold agree_on. cbn [cfg tokens tok_appr windows set_tokens]. rewrite lookup_delete_ne by congruence. auto. Qed.

(** Two different states, one of which knows nothing of the other two tokens; alice moves token 1 in both. *)
Example C127_example :
  let s' := set_tokens (delete 3 (tokens demo2)) demo2 in
  agree_on 1 demo2 s' /\ tokens demo2 !! 3 <> tokens s' !! 3 /\
  snd (step (from_ alice 3000000000) (call (ITransfer (xfer bob 1))) demo2) = ABatch [Ok 5] /\
  snd (step (from_ alice 3000000000) (call (ITransfer (xfer bob 1))) s') = ABatch [Ok 5] /\
  peers (from_ alice 3000000000) (from_ alice 3000000000).
Proof.
  cbv zeta. split; [|split; [vm_compute; discriminate|split; [vm_compute; reflexivity|split; [vm_compute; reflexivity|]]]].
  - apply agree_without. discriminate.
  - split; [reflexivity|split; [reflexivity|intros; exact I]].
Qed.

(** alice moves token 2 to bob, bob moves alice's token 1 under the approval: both are carried out in either order. *)
Example C128_example :
  let e1 := from_ alice 3000000000 in let e2 := from_ bob 3000000000 in
  let i := ITransfer (xfer bob 2) in let j := ITransferFrom (tfrom alice carol 1) in
  reachable demo2 /\ peers e1 e1 /\ peers e2 e2 /\ apart demo2 i j /\
  snd (step e1 (call i) demo2) = ABatch [Ok 5] /\ snd (step e2 (call j) (fst (step e1 (call i) demo2))) = ABatch [Ok 6] /\
  snd (step e2 (call j) demo2) = ABatch [Ok 5] /\ snd (step e1 (call i) (fst (step e2 (call j) demo2))) = ABatch [Ok 6] /\
  owners (fst (step e2 (call j) (fst (step e1 (call i) demo2)))) !! 1 = Some (acct carol) /\
  owners (fst (step e2 (call j) (fst (step e1 (call i) demo2)))) !! 2 = Some (acct bob).
Proof.
  cbv zeta. split; [apply demo_reachable|].
  split; [split; [reflexivity|split; [reflexivity|intros; exact I]]|].
  split; [split; [reflexivity|split; [reflexivity|intros; exact I]]|].
  split; [split; [discriminate|intros []]|]. splits; vm_compute; reflexivity.
Qed.

(** *** Any number of calls, in any order *)

Lemma agree_refl t s : agree_on t s s.
Proof. unfold agree_on. auto. Qed.
Lemma agree_sym t s s' : agree_on t s s' -> agree_on t s' s.
Proof. unfold agree_on. intros (? & ? & ? & ?). auto. Qed.
Lemma agree_trans t s1 s2 s3 : agree_on t s1 s2 -> agree_on t s2 s3 -> agree_on t s1 s3.
Proof. unfold agree_on. intros (? & ? & ? & ?) (? & ? & ? & ?). splits; congruence. Qed.
Lemma untouched_agree t (K : acckey -> Prop) s s' t' : untouched t K s s' -> t' <> t -> agree_on t' s s'.
Proof. intros (C & _ & F & _) N. destruct (F t' N) as (F1 & F2 & F3). unfold agree_on. splits; congruence. Qed.

Definition calls (l : list (env * item)) : history := map (fun ei => (fst ei, call (snd ei))) l.

(** After a sequence of calls about different tokens, each token is as if its call had been the only one. *)
Theorem C128_as_if_alone_partial l s :
  reachable s -> NoDup (map (fun ei => about (snd ei)) l) ->
  (forall e i, (e, i) ∈ l -> peers e e /\ ~ delegated i) ->
  (forall e i, (e, i) ∈ l -> agree_on (about i) (fst (step e (call i) s)) (run (calls l) s)) /\
  (forall t, t ∉ map (fun ei => about (snd ei)) l -> agree_on t s (run (calls l) s)) /\
  metas (run (calls l) s) = metas s /\ (forall k, col_appr (run (calls l) s) !! k = col_appr s !! k).
Proof.
  intros R. pose proof (reachable_wf s R) as W. clear R. revert s W.
  induction l as [|[e i] l IH]; intros s W ND P.
  { cbn. splits; auto; [intros e i H; inversion H|intros; apply agree_refl]. }
  cbn [map snd] in ND. inversion ND as [|x y Hni ND' E]; subst.
  cbn [calls map fst snd run]. set (s1 := fst (step e (call i) s)).
  destruct (P e i) as [Pe Di]; [left|].
  pose proof (call_frame e s i (fun _ => False) W) as U. fold s1 in U.
  assert (U' : untouched (about i) (fun _ => False) s s1) by (apply U; intros D; destruct (Di D)). clear U.
  assert (W1 : wf s1) by (apply step_wf; exact W).
  destruct (IH s1 W1 ND') as (H1 & H2 & H3 & H4); [intros e' i' H; apply P; right; exact H|].
  splits.
  - intros e' i' H. inversion H as [|? ? ? H']; subst; [apply H2; exact Hni|].
    eapply agree_trans; [|apply H1; exact H'].
    destruct (P e' i') as [Pe' Di']; [right; exact H'|].
    apply (call_local_plain e' e' s s1 i' Pe' Di').
    apply (untouched_agree (about i) (fun _ => False)); [exact U'|]. intros E. apply Hni. rewrite <- E.
    apply elem_of_list_In. apply elem_of_list_In in H'. exact (in_map (fun ei => about (snd ei)) l (e', i') H').
  - intros t Ht. cbn [map snd] in Ht. apply not_elem_of_cons in Ht as [Nt Ht].
    eapply agree_trans; [apply (untouched_agree _ _ _ _ t U' Nt)|apply H2; exact Ht].
  - etransitivity; [exact H3|]. apply U'.
  - intros k. etransitivity; [apply H4|]. destruct U' as (_ & _ & _ & U'). apply U'. auto.
Qed.
Print Assumptions C128_as_if_alone_partial.

Theorem C128_any_order_partial l l' s :
  reachable s -> NoDup (map (fun ei => about (snd ei)) l) -> l ≡ₚ l' ->
  (forall e i, (e, i) ∈ l -> peers e e /\ ~ delegated i) ->
  let a := run (calls l) s in let b := run (calls l') s in
  owners a = owners b /\ (forall t sp, token_approval a t sp = token_approval b t sp) /\
  (forall ow sp, collection_approval a ow sp = collection_approval b ow sp) /\ (forall t k, meta_of a t k = meta_of b t k).
Proof.
  intros R ND Pm P. cbv zeta.
  assert (ND' : NoDup (map (fun ei => about (snd ei)) l')) by (rewrite <- Pm; exact ND).
  destruct (C128_as_if_alone_partial l s R ND P) as (A1 & A2 & A3 & A4).
  destruct (C128_as_if_alone_partial l' s R ND') as (B1 & B2 & B3 & B4); [intros e i H; apply P; rewrite Pm; exact H|].
  assert (V : forall t, agree_on t (run (calls l) s) (run (calls l') s)).
  { intros t. destruct (decide (t ∈ map (fun ei : env * item => about (snd ei)) l)) as [H|H].
    - apply elem_of_list_In, in_map_iff in H as ([e i] & <- & H). cbn [snd]. apply elem_of_list_In in H.
      eapply agree_trans; [apply agree_sym, (A1 e i H)|apply B1; rewrite <- Pm; exact H].
    - eapply agree_trans; [apply agree_sym, A2, H|apply B2; rewrite <- Pm; exact H]. }
  splits.
  - apply map_eq. intros t. unfold owners. rewrite !lookup_fmap. destruct (V t) as (_ & -> & _). reflexivity.
  - intros t sp. unfold token_approval. destruct (V t) as (_ & _ & -> & _). reflexivity.
  - intros ow sp. unfold collection_approval. rewrite A4, B4. reflexivity.
  - intros t k. unfold meta_of. rewrite A3, B3. reflexivity.
Qed.
Print Assumptions C128_any_order_partial.

(** *** The items of one batch of transfers, in any order *)

Lemma transfer_wf e s a s' r : wf s -> transfer_nft e s a = Some (s', r) -> wf s'.
Proof.
  intros W H. destruct (transfer_nft_inv _ _ _ _ _ H) as
    [[Q _]|[(nft & n & _ & Q & _)|(nft & i & s2 & _ & Q & (T & _) & ->)]].
  - apply (wf_micro e OUpgrade s); [exact W|constructor; exact Q].
  - apply (wf_micro e OUpgrade s); [exact W|constructor; exact Q].
  - assert (W2 : wf s2) by (apply (wf_micro e OUpgrade s); [exact W|constructor; exact Q]).
    pose proof (wf_id s W _ _ T) as Hid. rewrite <- Hid in T.
    eapply (wf_move s2); [exact W2| |reflexivity|reflexivity]. destruct Q as (w & n & ->). exact T.
Qed.

Definition apart_from (l : list transfer_arg) (s s' : state) : Prop :=
  (forall t, t ∉ map ta_tid l -> agree_on t s s') /\ metas s' = metas s /\ forall k, col_appr s' !! k = col_appr s !! k.

Lemma run_items_alone e l : forall s, wf s -> peers e e -> NoDup (map ta_tid l) ->
  match run_items (transfer_nft e) s l with
  | None => exists a, a ∈ l /\ transfer_nft e s a = None
  | Some (s', rs) =>
      apart_from l s s' /\
      Forall2 (fun a r => exists x r', transfer_nft e s a = Some (x, r') /\ agree_on (ta_tid a) x s' /\ same_res r' r) l rs
  end.
Proof.
  induction l as [|a l IH]; intros s W Pe ND.
  { cbn. split; [|constructor]. unfold apart_from. splits; auto. intros. apply agree_refl. }
  cbn [map] in ND. inversion ND as [|x y Hni ND' E]; subst. cbn [run_items].
  pose proof (transfer_frame e s a (fun _ => False) W) as U.
  destruct (transfer_nft e s a) as [[s1 r]|] eqn:T; [|exists a; split; [left|exact T]]. cbn [frame_item] in U.
  assert (W1 : wf s1) by (eapply transfer_wf; eassumption).
  assert (Ne : forall b, b ∈ l -> ta_tid b <> ta_tid a).
  { intros b Hb E. apply Hni. rewrite <- E. apply elem_of_list_In, in_map, elem_of_list_In, Hb. }
  specialize (IH s1 W1 Pe ND').
  destruct (run_items (transfer_nft e) s1 l) as [[s' rs]|].
  - destruct IH as [(A1 & A2 & A3) F]. destruct U as (Uc & Um & Ut & Uk). split.
    + unfold apart_from. splits; [|congruence|intros k; rewrite A3; apply Uk; auto].
      intros t Ht. cbn [map] in Ht. apply not_elem_of_cons in Ht as [Nt Ht]. eapply agree_trans; [|apply A1, Ht].
      destruct (Ut t Nt) as (U1 & U2 & U3). unfold agree_on. splits; congruence.
    + constructor.
      * exists s1, r. split; [exact T|]. split; [apply A1, Hni|apply same_res_refl].
      * assert (G : forall b, b ∈ l -> agree_on (ta_tid b) s s1).
        { intros b Hb. destruct (Ut _ (Ne b Hb)) as (U1 & U2 & U3). unfold agree_on. splits; congruence. }
        clear -F G Pe. revert F. generalize rs. induction l as [|b l IH]; intros q F; inversion F as [|? r' ? q' Hb F' E1 E2]; subst; constructor.
        -- destruct Hb as (x & r0 & E & Ag & Sr). pose proof (transfer_local e e s s1 b Pe (G b ltac:(left))) as L.
           rewrite E in L. destruct (transfer_nft e s b) as [[x' r1]|]; cbn in L; [|contradiction]. destruct L as [L1 L2].
           exists x', r1. split; [reflexivity|]. split; [eapply agree_trans; eassumption|].
           destruct r1, r0, r'; cbn in *; congruence.
        -- apply IH; [|exact F']. intros b' Hb'. apply G. right. exact Hb'.
  - destruct IH as (b & Hb & E). exists b. split; [right; exact Hb|].
    assert (G : agree_on (ta_tid b) s s1) by (apply (untouched_agree _ _ _ _ _ U), Ne, Hb).
    pose proof (transfer_local e e s s1 b Pe G) as L. rewrite E in L. destruct (transfer_nft e s b) as [[x r1]|]; [contradiction|reflexivity].
Qed.

Theorem C128_batch_order_partial e l l' s :
  reachable s -> peers e e -> NoDup (map ta_tid l) -> l ≡ₚ l' ->
  nlen l <= default default_max_update (c_max_update (cfg s)) ->
  let a := step e (OTransfer l) s in let b := step e (OTransfer l') s in
  owners (fst a) = owners (fst b) /\
  (forall t sp, token_approval (fst a) t sp = token_approval (fst b) t sp) /\
  (forall ow sp, collection_approval (fst a) ow sp = collection_approval (fst b) ow sp) /\
  (forall t k, meta_of (fst a) t k = meta_of (fst b) t k) /\
  (snd a = snd b \/
   exists rs rs', snd a = ABatch rs /\ snd b = ABatch rs' /\ length rs = length l /\ length rs' = length l' /\
     forall k k' x r r', l !! k = Some x -> rs !! k = Some r -> l' !! k' = Some x -> rs' !! k' = Some r' -> same_res r r').
Proof.
  intros R Pe ND Pm Len. cbv zeta. pose proof (reachable_wf s R) as W.
  assert (ND' : NoDup (map ta_tid l')) by (rewrite <- Pm; exact ND).
  assert (Lb : length l = length l') by (rewrite Pm; reflexivity).
  assert (Nb : nlen l = nlen l') by (unfold nlen; congruence).
  destruct l as [|a0 m].
  { apply Permutation_nil in Pm. subst l'. splits; auto. }
  destruct l' as [|a0' m']; [discriminate Lb|]. cbn [step]. unfold icrc7_transfer. rewrite <- Nb.
  remember (a0 :: m) as l eqn:El. remember (a0' :: m') as l' eqn:El'. clear El El'.
  destruct (usize_try (default default_max_update (c_max_update (cfg s)))) as [mx|] eqn:Mx; [|splits; auto].
  destruct (_ && _); [splits; auto|]. destruct (bool_decide _); [splits; auto|].
  assert (Em : mx = default default_max_update (c_max_update (cfg s))).
  { unfold usize_try in Mx. destruct (_ <? _); congruence. }
  rewrite !take_n_at_most by (rewrite ?Em, <- ?Nb; exact Len).
  pose proof (run_items_alone e l s W Pe ND) as A. pose proof (run_items_alone e l' s W Pe ND') as B.
  destruct (run_items (transfer_nft e) s l) as [[s1 rs]|], (run_items (transfer_nft e) s l') as [[s2 rs']|]; cbn [ans_batch fst snd].
  - destruct A as [(A1 & A2 & A3) FA], B as [(B1 & B2 & B3) FB].
    assert (V : forall t, agree_on t s1 s2).
    { intros t. destruct (decide (t ∈ map ta_tid l)) as [H|H].
      - apply elem_of_list_In, in_map_iff in H as (a & <- & H). apply elem_of_list_In in H.
        pose proof (proj1 (elem_of_list_lookup _ _) H) as [k Hk].
        assert (H' : a ∈ l') by (rewrite <- Pm; exact H). pose proof (proj1 (elem_of_list_lookup _ _) H') as [k' Hk'].
        destruct (Forall2_lookup_l _ _ _ _ _ FA Hk) as (r & _ & x & r0 & E & G & _).
        destruct (Forall2_lookup_l _ _ _ _ _ FB Hk') as (r' & _ & x' & r0' & E' & G' & _).
        rewrite E in E'. injection E' as <- <-. eapply agree_trans; [apply agree_sym, G|exact G'].
      - eapply agree_trans; [apply agree_sym, A1, H|apply B1; rewrite <- Pm; exact H]. }
    splits.
    + apply map_eq. intros t. unfold owners. rewrite !lookup_fmap. destruct (V t) as (_ & -> & _). reflexivity.
    + intros t sp. unfold token_approval. destruct (V t) as (_ & _ & -> & _). reflexivity.
    + intros ow sp. unfold collection_approval. rewrite A3, B3. reflexivity.
    + intros t k. unfold meta_of. rewrite A2, B2. reflexivity.
    + right. exists rs, rs'. splits; [reflexivity..|symmetry; apply (Forall2_length _ _ _ FA)|symmetry; apply (Forall2_length _ _ _ FB)|].
      intros k k' x r r' Hk Hr Hk' Hr'.
      destruct (Forall2_lookup_lr _ _ _ _ _ _ FA Hk Hr) as (y & r0 & E & _ & G).
      destruct (Forall2_lookup_lr _ _ _ _ _ _ FB Hk' Hr') as (y' & r0' & E' & _ & G').
      rewrite E in E'. injection E' as <- <-. destruct r0, r, r'; cbn in *; congruence.
  - destruct B as (a & Ha & E). rewrite <- Pm in Ha. apply elem_of_list_lookup in Ha as [k Hk]. destruct A as [_ FA].
    destruct (Forall2_lookup_l _ _ _ _ _ FA Hk) as (r & _ & x & r0 & E' & _). congruence.
  - destruct A as (a & Ha & E). rewrite Pm in Ha. apply elem_of_list_lookup in Ha as [k Hk]. destruct B as [_ FB].
    destruct (Forall2_lookup_l _ _ _ _ _ FB Hk) as (r & _ & x & r0 & E' & _). congruence.
  - splits; auto.
Qed.
Print Assumptions C128_batch_order_partial.

(** One batch with a transfer that is carried out and one that is refused, in both orders. *)
Example C128_batch_example :
  let l := [xfer bob 1; xfer bob 3] in let l' := [xfer bob 3; xfer bob 1] in let e := from_ alice 3000000000 in
  reachable demo2 /\ peers e e /\ NoDup (map ta_tid l) /\ l ≡ₚ l' /\
  nlen l <= default default_max_update (c_max_update (cfg demo2)) /\
  snd (step e (OTransfer l) demo2) = ABatch [Ok 5; Err EInvalidRecipient] /\
  snd (step e (OTransfer l') demo2) = ABatch [Err EInvalidRecipient; Ok 5] /\
  owners (fst (step e (OTransfer l) demo2)) !! 1 = Some (acct bob).
Proof.
  cbv zeta. split; [apply demo_reachable|]. split; [split; [reflexivity|split; [reflexivity|intros; exact I]]|].
  split; [apply NoDup_cons; split; [set_solver|apply NoDup_singleton]|]. split; [apply Permutation_swap|].
  split; [vm_compute; discriminate|]. splits; vm_compute; reflexivity.
Qed.
(** Three calls by three people about three tokens, in two orders. *)
Example C128_any_order_example :
  let l := [(from_ alice 3000000000, ITransfer (xfer bob 2)); (from_ alice 3000000000, IRevoke (mkRevokeArg None None 1 None None));
            (from_ bob 3000000000, IApprove (appr 3 carol 3000000000 None))] in
  NoDup (map (fun ei => about (snd ei)) l) /\ (forall e i, (e, i) ∈ l -> peers e e /\ ~ delegated i) /\
  owners (run (calls l) demo2) !! 2 = Some (acct bob) /\ owners (run (calls (reverse l)) demo2) !! 2 = Some (acct bob) /\
  token_approval demo2 1 (acct bob) <> None /\ token_approval (run (calls (reverse l)) demo2) 1 (acct bob) = None /\
  token_approval (run (calls l) demo2) 3 (acct carol) <> None.
Proof.
  cbv zeta. split; [repeat (apply NoDup_cons; split; [set_solver|]); apply NoDup_nil_2|].
  split. { intros e i H. apply elem_of_list_In in H. cbn [In] in H. destruct H as [H|[H|[H|[]]]]; injection H as <- <-;
    (split; [split; [reflexivity|split; [reflexivity|intros; exact I]]|intros []]). }
  split; [vm_compute; reflexivity|]. split; [vm_compute; reflexivity|]. split; [vm_compute; discriminate|].
  split; [vm_compute; reflexivity|]. vm_compute. discriminate.
Qed.
