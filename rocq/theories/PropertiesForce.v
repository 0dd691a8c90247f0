(** C158: only approvals in force count. *)
From Verif Require Import Base ModelPrincipal ModelState ModelIcrc7 ModelIcrc37 ModelManagement ModelLifecycle
  ModelQueries ModelStep ProofsItems ProofsManage ProofsMicro Spec ProofsCore ProofsLock Scenario PropertiesManage PropertiesPrivacy
  PropertiesMirror PropertiesApprovals.

(** The approval of an entry if it has not expired at [now]. *)
Definition in_force (now : N) (x : option (account * approval)) : option approval :=
  match x with
  | Some (_, ap) => match a_expires ap with Some t => if t <=? now then None else Some ap | None => Some ap end
  | None => None
  end.

(** The same approvals are in force at [now]. *)
Definition force_map (now : N) (m m' : appmap) : Prop := forall k, in_force now (m !! k) = in_force now (m' !! k).

(** The same for what is kept for a token or an account, if anything. *)
Definition force_opt (now : N) (o o' : option appmap) : Prop :=
  match o, o' with
  | None, None => True
  | Some m, Some m' => force_map now m m'
  | _, _ => False
  end.

(** Two ledgers that differ at most in approvals that have expired at [now]. *)
Definition same_force (now : N) (s s' : state) : Prop :=
  (cfg s, perms s, tokens s, by_owner s, last_id s, redirs s, subs s, metas s, windows s, guards s, files s, log s,
   lcalls s, pend s, next_pend s) =
  (cfg s', perms s', tokens s', by_owner s', last_id s', redirs s', subs s', metas s', windows s', guards s', files s', log s',
   lcalls s', pend s', next_pend s') /\
  (forall t, force_opt now (tok_appr s !! t) (tok_appr s' !! t)) /\
  (forall k, force_opt now (col_appr s !! k) (col_appr s' !! k)).

(** The refusals of approvals beyond the permitted number, which is counted with the expired ones. *)
Definition too_many (er : err) : Prop :=
  er = EGeneric 1 "Maximum approvals per token exceeded" \/ er = EGeneric 1 "Maximum approvals per collection exceeded".

(** No approval of the call was refused for the number of approvals (of a call that traps one does not know). *)
Definition not_crowded (o : op) (a : answer) : Prop :=
  match a with
  | ABatch l => Forall (fun r => forall er, r = Err er -> ~ too_many er) l
  | ATrap => forall l, o <> OApproveTokens l
  | _ => True
  end.

(** ** Approvals in force *)

Lemma force_refl now m : force_map now m m.
Proof. intros k. reflexivity. Qed.
Lemma force_opt_refl now o : force_opt now o o.
Proof. destruct o; cbn; [apply force_refl|exact Logic.I]. Qed.
Lemma in_force_later now now' x : now <= now' ->
  in_force now' x = match in_force now x with
                    | Some ap => match a_expires ap with Some t => if t <=? now' then None else Some ap | None => Some ap end
                    | None => None
                    end.
Proof.
  intros L. destruct x as [[k ap]|]; [|reflexivity]. cbn. destruct (a_expires ap) as [t|] eqn:E; [|rewrite E; reflexivity].
  destruct (t <=? now) eqn:T; [|rewrite E; reflexivity]. apply N.leb_le in T. replace (t <=? now') with true by (symmetry; apply N.leb_le; lia).
  reflexivity.
Qed.
Lemma force_later now now' m m' : now <= now' -> force_map now m m' -> force_map now' m m'.
Proof. intros L F k. rewrite !(in_force_later now now') by exact L. rewrite F. reflexivity. Qed.
Lemma same_force_later now now' s s' : now <= now' -> same_force now s s' -> same_force now' s s'.
Proof.
  intros L (R & T & C). split; [exact R|]. split; intros k; [specialize (T k)|specialize (C k)]; unfold force_opt in *;
    repeat case_match; try assumption; eapply force_later; eassumption.
Qed.
Lemma force_default now o o' : force_opt now o o' -> force_map now (default ∅ o) (default ∅ o').
Proof. destruct o, o'; cbn; try tauto. intros _. apply force_refl. Qed.

Lemma insert_lookup sp ap m k :
  exists x, appmap_insert sp ap m !! k = if decide (k = akey sp) then Some (x, ap) else m !! k.
Proof.
  unfold appmap_insert. destruct (m !! akey sp) as [[y b]|]; [exists y|exists sp]; (destruct (decide _) as [->|];
    [apply lookup_insert|apply lookup_insert_ne; congruence]).
Qed.
Lemma force_insert now sp ap m m' : force_map now m m' -> force_map now (appmap_insert sp ap m) (appmap_insert sp ap m').
Proof.
  intros F k. destruct (insert_lookup sp ap m k) as [x ->], (insert_lookup sp ap m' k) as [x' ->]. destruct (decide _); [reflexivity|apply F].
Qed.
Lemma force_delete now k m m' : force_map now m m' -> force_map now (delete k m) (delete k m').
Proof.
  intros F j. destruct (decide (k = j)) as [->|]; [rewrite !lookup_delete; reflexivity|]. rewrite !lookup_delete_ne by assumption. apply F.
Qed.
Lemma force_revoke now sp m m' : force_map now m m' -> force_map now (revoke_from sp m) (revoke_from sp m').
Proof. destruct sp; cbn; intros F; [apply force_delete, F|apply force_refl]. Qed.
(** Dropping an approval that is not in force. *)
Lemma force_drop now k m : in_force now (m !! k) = None -> force_map now m (delete k m).
Proof.
  intros E j. destruct (decide (k = j)) as [<-|]; [rewrite lookup_delete; exact E|rewrite lookup_delete_ne by assumption; reflexivity].
Qed.
Lemma force_sym now m m' : force_map now m m' -> force_map now m' m.
Proof. intros F k. symmetry. apply F. Qed.
Lemma force_trans now m m' m2 : force_map now m m' -> force_map now m' m2 -> force_map now m m2.
Proof. intros F G k. rewrite F. apply G. Qed.

Lemma force_square now o o' p p' : force_opt now o o' -> force_opt now o p -> force_opt now o' p' -> force_opt now p p'.
Proof.
  destruct o, o', p, p'; cbn; try tauto. intros F G H. eapply force_trans; [apply force_sym, G|]. eapply force_trans; [exact F|exact H].
Qed.

Lemma force_outer {K : Type} `{Countable K} (now : N) (M M' : gmap K appmap) k m m' :
  (forall j, force_opt now (M !! j) (M' !! j)) -> force_map now m m' -> forall j, force_opt now (<[k := m]> M !! j) (<[k := m']> M' !! j).
Proof.
  intros F G j. destruct (decide (k = j)) as [<-|]; [rewrite !lookup_insert; exact G|]. rewrite !lookup_insert_ne by assumption. apply F.
Qed.
Lemma force_outer_delete {K : Type} `{Countable K} (now : N) (M M' : gmap K appmap) k :
  (forall j, force_opt now (M !! j) (M' !! j)) -> forall j, force_opt now (delete k M !! j) (delete k M' !! j).
Proof.
  intros F j. destruct (decide (k = j)) as [<-|]; [rewrite !lookup_delete; exact Logic.I|]. rewrite !lookup_delete_ne by assumption. apply F.
Qed.

(** ** The ledger with other approvals *)

(** The ledger with the approvals [t] and [c]. *)
Definition put (t : gmap N appmap) (c : gmap acckey appmap) (s : state) : state := set_col_appr c (set_tok_appr t s).

Lemma same_force_put now s s' : same_force now s s' <-> exists t c, s' = put t c s /\
  (forall k, force_opt now (tok_appr s !! k) (t !! k)) /\ (forall k, force_opt now (col_appr s !! k) (c !! k)).
Proof.
  split.
  - intros (R & T & C). exists (tok_appr s'), (col_appr s'). split; [|split; assumption]. destruct s, s'. cbn in R. injection R as.
    subst. reflexivity.
  - intros (t & c & -> & T & C). split; [reflexivity|]. split; assumption.
Qed.

(** [f] neither reads nor writes approvals. *)
Definition blind {B} (f : state -> option (state * B)) : Prop :=
  forall t c s, f (put t c s) = match f s with None => None | Some (s', r) => Some (put t c s', r) end /\
    match f s with None => True | Some (s', _) => tok_appr s' = tok_appr s /\ col_appr s' = col_appr s end.

Lemma guard_put t c now k s :
  guard_sliding_window now k (put t c s) = (put t c (fst (guard_sliding_window now k s)), snd (guard_sliding_window now k s)).
Proof. unfold guard_sliding_window. cbn. destruct (_ <=? _); reflexivity. Qed.
Lemma guard_same now k s :
  tok_appr (fst (guard_sliding_window now k s)) = tok_appr s /\ col_appr (fst (guard_sliding_window now k s)) = col_appr s.
Proof. unfold guard_sliding_window. cbn. destruct (_ <=? _); split; reflexivity. Qed.
Lemma add_put t c e x s : add_transaction e x (put t c s) = (put t c (fst (add_transaction e x s)), snd (add_transaction e x s)).
Proof. unfold add_transaction. cbn. destruct (e_log _ _ _); reflexivity. Qed.
Lemma add_same e x s :
  tok_appr (fst (add_transaction e x s)) = tok_appr s /\ col_appr (fst (add_transaction e x s)) = col_appr s.
Proof. unfold add_transaction. cbn. destruct (e_log _ _ _); split; reflexivity. Qed.

(** ** One item *)

(** [f] treats ledgers with the same approvals in force alike, unless there are too many approvals. *)
Definition keeps {A} (now : N) (f : state -> A -> option (state * res N)) : Prop :=
  forall s s' a, same_force now s s' ->
    match f s a, f s' a with
    | Some (s1, r), Some (s1', r') =>
        (exists er, (r = Err er \/ r' = Err er) /\ too_many er) \/ (r = r' /\ same_force now s1 s1')
    | _, _ => True
    end.

Lemma guard_keeps now n k s s' : same_force now s s' ->
  snd (guard_sliding_window n k s) = snd (guard_sliding_window n k s') /\
  same_force now (fst (guard_sliding_window n k s)) (fst (guard_sliding_window n k s')).
Proof.
  intros (t & c & -> & T & C)%same_force_put. rewrite guard_put. destruct (guard_same n k s) as [E1 E2]. split; [reflexivity|].
  apply same_force_put. exists t, c. split; [reflexivity|]. rewrite E1, E2. split; assumption.
Qed.
Lemma add_keeps now e x s s' : same_force now s s' ->
  snd (add_transaction e x s) = snd (add_transaction e x s') /\
  same_force now (fst (add_transaction e x s)) (fst (add_transaction e x s')).
Proof.
  intros (t & c & -> & T & C)%same_force_put. rewrite add_put. destruct (add_same e x s) as [E1 E2]. split; [reflexivity|].
  apply same_force_put. exists t, c. split; [reflexivity|]. rewrite E1, E2. split; assumption.
Qed.
Lemma set_tok_keeps now s s' t t' : same_force now s s' -> (forall k, force_opt now (t !! k) (t' !! k)) ->
  same_force now (set_tok_appr t s) (set_tok_appr t' s').
Proof. intros (R & T & C) F. split; [exact R|]. split; [exact F|exact C]. Qed.
Lemma set_col_keeps now s s' t t' : same_force now s s' -> (forall k, force_opt now (t !! k) (t' !! k)) ->
  same_force now (set_col_appr t s) (set_col_appr t' s').
Proof. intros (R & T & C) F. split; [exact R|]. split; [exact T|exact F]. Qed.

(** Two ledgers with the same approvals in force agree on whether the spender has one. *)
Lemma check_tok_keeps now tid sp s s' : same_force now s s' ->
  snd (check_token_approval now tid sp s) = snd (check_token_approval now tid sp s') /\
  same_force now (fst (check_token_approval now tid sp s)) (fst (check_token_approval now tid sp s')).
Proof.
  assert (K : forall z, snd (check_token_approval now tid sp z) =
      match in_force now (default ∅ (tok_appr z !! tid) !! akey sp) with Some _ => true | None => false end /\
    same_force now z (fst (check_token_approval now tid sp z))).
  { intros z. unfold check_token_approval.
    assert (Z : same_force now z z) by (apply same_force_put; exists (tok_appr z), (col_appr z); split; [destruct z; reflexivity|];
      split; intros; apply force_opt_refl).
    destruct (tok_appr z !! tid) as [m|] eqn:E; cbn [default from_option]; [|rewrite lookup_empty; split; [reflexivity|exact Z]].
    unfold id. destruct (m !! akey sp) as [[k ap]|] eqn:Em; [|split; [reflexivity|exact Z]]. cbn [in_force].
    destruct (a_expires ap) as [x|] eqn:Ex; [|split; [reflexivity|exact Z]]. destruct (x <=? now) eqn:L; [|split; [reflexivity|exact Z]].
    split; [reflexivity|]. cbn [fst]. destruct Z as (R & T & C). split; [exact R|]. split; [|exact C]. intros j. cbn [tok_appr set_tok_appr].
    destruct (decide (tid = j)) as [<-|]; [|rewrite lookup_insert_ne by assumption; apply T].
    rewrite lookup_insert, E. cbn. apply force_drop. rewrite Em. cbn. rewrite Ex, L. reflexivity. }
  intros F. destruct (K s) as [E1 F1], (K s') as [E2 F2]. split.
  - rewrite E1, E2. destruct F as (_ & T & _). rewrite (force_default _ _ _ (T tid)). reflexivity.
  - destruct F as (R & T & C), F1 as (R1 & T1 & C1), F2 as (R2 & T2 & C2). split; [etransitivity; [symmetry; exact R1|]; etransitivity; [exact R|exact R2]|].
    split; intros k.
    + exact (force_square _ _ _ _ _ (T k) (T1 k) (T2 k)).
    + exact (force_square _ _ _ _ _ (C k) (C1 k) (C2 k)).
Qed.
Lemma check_col_keeps now ow sp s s' : same_force now s s' ->
  snd (check_collection_approval now ow sp s) = snd (check_collection_approval now ow sp s') /\
  same_force now (fst (check_collection_approval now ow sp s)) (fst (check_collection_approval now ow sp s')).
Proof.
  assert (K : forall z, snd (check_collection_approval now ow sp z) =
      match in_force now (default ∅ (col_appr z !! akey ow) !! akey sp) with Some _ => true | None => false end /\
    same_force now z (fst (check_collection_approval now ow sp z))).
  { intros z. unfold check_collection_approval.
    assert (Z : same_force now z z) by (apply same_force_put; exists (tok_appr z), (col_appr z); split; [destruct z; reflexivity|];
      split; intros; apply force_opt_refl).
    destruct (col_appr z !! akey ow) as [m|] eqn:E; cbn [default from_option]; [|rewrite lookup_empty; split; [reflexivity|exact Z]].
    unfold id. destruct (m !! akey sp) as [[k ap]|] eqn:Em; [|split; [reflexivity|exact Z]]. cbn [in_force].
    destruct (a_expires ap) as [x|] eqn:Ex; [|split; [reflexivity|exact Z]]. destruct (x <=? now) eqn:L; [|split; [reflexivity|exact Z]].
    split; [reflexivity|]. cbn [fst]. destruct Z as (R & T & C). split; [exact R|]. split; [exact T|]. intros j. cbn [col_appr set_col_appr].
    destruct (decide (akey ow = j)) as [<-|]; [|rewrite lookup_insert_ne by assumption; apply C].
    rewrite lookup_insert, E. cbn. apply force_drop. rewrite Em. cbn. rewrite Ex, L. reflexivity. }
  intros F. destruct (K s) as [E1 F1], (K s') as [E2 F2]. split.
  - rewrite E1, E2. destruct F as (_ & _ & C). rewrite (force_default _ _ _ (C (akey ow))). reflexivity.
  - destruct F as (R & T & C), F1 as (R1 & T1 & C1), F2 as (R2 & T2 & C2). split; [etransitivity; [symmetry; exact R1|]; etransitivity; [exact R|exact R2]|].
    split; intros k.
    + exact (force_square _ _ _ _ _ (T k) (T1 k) (T2 k)).
    + exact (force_square _ _ _ _ _ (C k) (C1 k) (C2 k)).
Qed.

(** The rest of the ledger is the same. *)
Ltac rest F :=
  let R := fresh "R" in destruct F as (R & ? & ?); injection R as.
Lemma rest_eq now s s' : same_force now s s' ->
  cfg s' = cfg s /\ tokens s' = tokens s /\ by_owner s' = by_owner s /\ windows s' = windows s.
Proof. intros (R & _). injection R as. repeat split; congruence. Qed.
Lemma timing_keeps now s s' x n : same_force now s s' -> verify_approval_timing s' x n = verify_approval_timing s x n.
Proof. intros F. destruct (rest_eq _ _ _ F) as (E & _). unfold verify_approval_timing. rewrite E. reflexivity. Qed.
Lemma opt_timing_keeps now s s' x n : same_force now s s' -> verify_opt_timing s' x n = verify_opt_timing s x n.
Proof. intros F. destruct x; [apply (timing_keeps now), F|reflexivity]. Qed.
Lemma msg_keeps now s s' n t : same_force now s s' -> rate_limit_msg n t s' = rate_limit_msg n t s.
Proof. intros F. destruct (rest_eq _ _ _ F) as (_ & _ & _ & E). unfold rate_limit_msg. rewrite E. reflexivity. Qed.
Lemma owner_keeps now s s' t : same_force now s s' -> owner_of s' t = owner_of s t.
Proof. intros F. destruct (rest_eq _ _ _ F) as (_ & E & _). unfold owner_of. rewrite E. reflexivity. Qed.

Ltac on := right; split; [reflexivity|assumption].
Ltac guarded F n t s s' :=
  let E := fresh "E" in
  destruct (guard_keeps _ n t s s' F) as [E ?F0]; clear F;
  destruct (guard_sliding_window n t s) as [s0 pass], (guard_sliding_window n t s') as [s0' pass']; cbn [fst snd] in *; subst pass'.
Ltac logged F e s s' :=
  match goal with
  | |- context [add_transaction e ?x s] =>
    let E := fresh "E" in
    destruct (add_keeps _ e x s s' F) as [E ?F2]; destruct (add_transaction e x s) as [s2 ans], (add_transaction e x s') as [s2' ans'];
    cbn [fst snd] in *; subst ans'
  end.

Lemma approve_keeps e : keeps (e_now e) (approve_token e).
Proof.
  intros s s' a F. unfold approve_token. guarded F (e_now e) (ap_tid a) s s'.
  destruct pass; cbn [negb]; [|rewrite (msg_keeps _ _ _ _ _ F0); on].
  rewrite (timing_keeps _ _ _ _ _ F0). destruct (verify_approval_timing _ _ _); [|on|on].
  rewrite (owner_keeps _ _ _ _ F0). destruct (owner_of s0 _) as [ow|]; [|on].
  destruct (negb _); [on|]. destruct (acc_eqb _ anonymous_account); [on|].
  destruct (match tok_appr s0 !! _ with Some _ => _ | None => _ end) eqn:E1.
  { assert (TM : too_many (EGeneric 1 "Maximum approvals per token exceeded")) by (left; reflexivity).
    destruct (match tok_appr s0' !! _ with Some _ => _ | None => _ end); [left; eexists; split; [left; reflexivity|exact TM]|].
    destruct (add_transaction _ _ s0') as [? []]; try destruct (_ <? _); try exact Logic.I; left; eexists; (split; [left; reflexivity|exact TM]). }
  destruct (match tok_appr s0' !! _ with Some _ => _ | None => _ end) eqn:E2.
  { assert (TM : too_many (EGeneric 1 "Maximum approvals per token exceeded")) by (left; reflexivity).
    destruct (add_transaction _ _ s0) as [? []]; try destruct (_ <? _); try exact Logic.I; left; eexists; (split; [right; reflexivity|exact TM]). }
  logged F0 e s0 s0'. destruct ans; [|on..].
  destruct (_ <? _); [|exact Logic.I]. right. split; [reflexivity|]. assert (F3 := F2). destruct F3 as (_ & T & _).
  apply set_tok_keeps; [exact F2|]. apply force_outer; [exact T|]. apply force_insert, force_default, T.
Qed.
Lemma approve_coll_keeps e : keeps (e_now e) (approve_collection e).
Proof.
  intros s s' a F. unfold approve_collection. guarded F (e_now e) 0 s s'.
  destruct pass; cbn [negb]; [|rewrite (msg_keeps _ _ _ _ _ F0); on].
  rewrite (timing_keeps _ _ _ _ _ F0). destruct (verify_approval_timing _ _ _); [|on|on].
  destruct (acc_eqb _ anonymous_account); [on|].
  replace (has_nfts s0' (e_caller e)) with (has_nfts s0 (e_caller e)).
  2: { destruct (rest_eq _ _ _ F0) as (_ & E & _). unfold has_nfts. rewrite E. reflexivity. }
  destruct (negb _); [on|].
  assert (TM : too_many (EGeneric 1 "Maximum approvals per collection exceeded")) by (right; reflexivity).
  destruct (match col_appr s0 !! _ with Some _ => _ | None => _ end) eqn:E1.
  { destruct (match col_appr s0' !! _ with Some _ => _ | None => _ end); [left; eexists; split; [left; reflexivity|exact TM]|].
    destruct (add_transaction _ _ s0') as [? []]; left; eexists; (split; [left; reflexivity|exact TM]). }
  destruct (match col_appr s0' !! _ with Some _ => _ | None => _ end) eqn:E2.
  { destruct (add_transaction _ _ s0) as [? []]; left; eexists; (split; [right; reflexivity|exact TM]). }
  logged F0 e s0 s0'. destruct ans; [|on..].
  right. split; [reflexivity|]. assert (F3 := F2). destruct F3 as (_ & _ & C).
  apply set_col_keeps; [exact F2|]. apply force_outer; [exact C|]. apply force_insert, force_default, C.
Qed.
Lemma revoke_keeps e : keeps (e_now e) (revoke_token_approvals e).
Proof.
  intros s s' a F0. unfold revoke_token_approvals.
  rewrite (opt_timing_keeps _ _ _ _ _ F0). destruct (verify_opt_timing _ _ _); [|on|on].
  rewrite (owner_keeps _ _ _ _ F0). destruct (owner_of s _) as [ow|]; [|on]. destruct (negb _); [on|].
  assert (F1 := F0). destruct F1 as (_ & T & _). specialize (T (rv_tid a)).
  destruct (tok_appr s !! rv_tid a) as [m|], (tok_appr s' !! rv_tid a) as [m'|]; cbn in T; try contradiction; [|on].
  logged F0 e s s'. destruct ans; [|on..]. right. split; [reflexivity|].
  assert (F3 := F2). destruct F3 as (_ & T2 & _). apply set_tok_keeps; [exact F2|]. apply force_outer; [exact T2|]. apply force_revoke, T.
Qed.
Lemma revoke_coll_keeps e : keeps (e_now e) (revoke_collection_approvals e).
Proof.
  intros s s' a F. unfold revoke_collection_approvals. guarded F (e_now e) 0 s s'.
  destruct pass; cbn [negb]; [|rewrite (msg_keeps _ _ _ _ _ F0); on].
  rewrite (opt_timing_keeps _ _ _ _ _ F0). destruct (verify_opt_timing _ _ _); [|on|on].
  assert (F1 := F0). destruct F1 as (_ & _ & C). specialize (C (akey (mkAcc (e_caller e) None))).
  destruct (col_appr s0 !! _) as [m|], (col_appr s0' !! _) as [m'|]; cbn in C; try contradiction; [|on].
  logged F0 e s0 s0'. destruct ans; [|on..]. right. split; [reflexivity|].
  assert (F3 := F2). destruct F3 as (_ & _ & C2). apply set_col_keeps; [exact F2|]. apply force_outer; [exact C2|]. apply force_revoke, C.
Qed.

Lemma move_keeps now k a s s' : same_force now s s' -> same_force now (move_token k a s) (move_token k a s').
Proof.
  intros (t & c & -> & T & C)%same_force_put. apply same_force_put. exists t, c. split; [reflexivity|]. split; assumption.
Qed.
Lemma from_keeps e : keeps (e_now e) (transfer_from e).
Proof.
  intros s s' a F. unfold transfer_from. guarded F (e_now e) (tf_tid a) s s'.
  destruct pass; cbn [negb]; [|rewrite (msg_keeps _ _ _ _ _ F0); on].
  rewrite (opt_timing_keeps _ _ _ _ _ F0). destruct (verify_opt_timing _ _ _); [|on|on].
  destruct (rest_eq _ _ _ F0) as (_ & Et & _). rewrite Et. destruct (tokens s0 !! _) as [nft|]; [|on].
  destruct (acc_eqb (tf_from a) _); [on|]. destruct (acc_eqb _ anonymous_account); [on|].
  set (sp := mkAcc (e_caller e) (tf_spender_sub a)).
  destruct (check_tok_keeps (e_now e) (tf_tid a) sp s0 s0' F0) as [E1 F1].
  destruct (check_token_approval _ _ _ s0) as [s1 ht], (check_token_approval _ _ _ s0') as [s1' ht']. cbn [fst snd] in *. subst ht'.
  destruct (check_col_keeps (e_now e) (t_owner nft) sp s1 s1' F1) as [E2 F2].
  destruct (check_collection_approval _ _ _ s1) as [s3 hc], (check_collection_approval _ _ _ s1') as [s3' hc']. cbn [fst snd] in *. subst hc'.
  destruct (_ || _); [on|]. logged F2 e s3 s3'. destruct ans; [|on..].
  right. split; [reflexivity|]. apply (move_keeps _ nft (tf_to a)) in F3. assert (F4 := F3). destruct F4 as (_ & T & C).
  apply set_col_keeps; [apply set_tok_keeps; [exact F3|]|]; apply force_outer_delete; [exact T|exact C].
Qed.

(** No refusal for the number of approvals. *)
Definition roomly (rs : list (res N)) : Prop := Forall (fun r => forall er, r = Err er -> ~ too_many er) rs.

Lemma items_keep {A} now (f : state -> A -> option (state * res N)) :
  keeps now f -> forall l s s' s1 s1' rs rs', same_force now s s' ->
    run_items f s l = Some (s1, rs) -> run_items f s' l = Some (s1', rs') -> roomly rs -> roomly rs' -> rs = rs' /\ same_force now s1 s1'.
Proof.
  intros K l. induction l as [|a l IH]; intros s s' s1 s1' rs rs' F H H' R R'; cbn in H, H'.
  { injection H as <- <-. injection H' as <- <-. split; [reflexivity|exact F]. }
  assert (X := K s s' a F). destruct (f s a) as [[s2 r]|]; [|discriminate]. destruct (f s' a) as [[s2' r']|]; [|discriminate].
  destruct (run_items f s2 l) as [[s3 ts]|] eqn:E; [|discriminate]. destruct (run_items f s2' l) as [[s3' ts']|] eqn:E'; [|discriminate].
  injection H as <- <-. injection H' as <- <-. apply Forall_cons_1 in R as [R1 R2]. apply Forall_cons_1 in R' as [R1' R2'].
  destruct X as [(er & [->| ->] & TM)|[-> F1]]; [destruct (R1 er eq_refl TM)|destruct (R1' er eq_refl TM)|].
  destruct (IH _ _ _ _ _ _ F1 E E' R2 R2') as [-> F2]. split; [reflexivity|exact F2].
Qed.

(** [f] never traps. *)
Definition total {A} (f : state -> A -> option (state * res N)) : Prop := forall s a, f s a <> None.
Lemma total_items {A} (f : state -> A -> option (state * res N)) : total f -> forall l s, exists s1 rs, run_items f s l = Some (s1, rs).
Proof.
  intros T l. induction l as [|a l IH]; intros s; cbn; [eauto|].
  assert (X := T s a). destruct (f s a) as [[s1 r]|]; [|destruct (X eq_refl)]. destruct (IH s1) as (s2 & rs & ->). eauto.
Qed.
Lemma approve_coll_total e : total (approve_collection e).
Proof. intros s a. unfold approve_collection. repeat case_match; discriminate. Qed.
Lemma revoke_total e : total (revoke_token_approvals e).
Proof. intros s a. unfold revoke_token_approvals. repeat case_match; discriminate. Qed.
Lemma revoke_coll_total e : total (revoke_collection_approvals e).
Proof. intros s a. unfold revoke_collection_approvals. repeat case_match; discriminate. Qed.
Lemma from_total e : total (transfer_from e).
Proof. intros s a. unfold transfer_from. repeat case_match; discriminate. Qed.

(** ** The other calls *)

Lemma put_pair {B} (f : state -> option (state * B)) : (forall t c s, f (put t c s) = match f s with None => None | Some (s', r) => Some (put t c s', r) end) -> blind f.
Proof.
  intros E t c s. split; [apply E|]. assert (Z : s = put (tok_appr s) (col_appr s) s) by (destruct s; reflexivity).
  assert (X := E (tok_appr s) (col_appr s) s). rewrite <- Z in X. destruct (f s) as [[s' r]|]; [|exact Logic.I].
  injection X as X. rewrite X. split; reflexivity.
Qed.

Lemma transfer_blind e a : blind (fun s => transfer_nft e s a).
Proof.
  apply put_pair. intros t c s. unfold transfer_nft. rewrite guard_put.
  destruct (guard_sliding_window (e_now e) (ta_tid a) s) as [s0 pass]. cbn [fst snd].
  destruct pass; cbn [negb]; [|reflexivity]. change (tokens (put t c s0)) with (tokens s0). destruct (tokens s0 !! ta_tid a) as [nft|]; [|reflexivity].
  change (check_memo (put t c s0)) with (check_memo s0). destruct (check_memo s0 _) as [[]|]; try reflexivity.
  destruct (_ || _); [reflexivity|]. change (cfg (put t c s0)) with (cfg s0).
  destruct (u64_setting (c_drift _) _) as [dr|]; [|reflexivity]. destruct (_ <? _); [reflexivity|].
  destruct (u64_setting (c_tx_window _) _) as [wi|]; [|reflexivity]. destruct (default _ _ <? _); [reflexivity|]. rewrite add_put.
  destruct (add_transaction _ _ s0) as [s2 []]; reflexivity.
Qed.
Lemma items_blind {A} (f : state -> A -> option (state * res N)) : (forall a, blind (fun s => f s a)) -> forall l, blind (fun s => run_items f s l).
Proof.
  intros B l. apply put_pair. induction l as [|a l IH]; intros t c s; cbn; [reflexivity|].
  destruct (B a t c s) as [-> _]. destruct (f s a) as [[s1 r]|]; [|reflexivity]. rewrite IH. destruct (run_items f s1 l) as [[]|]; reflexivity.
Qed.

Lemma mint_log_put t c e l : forall id s, mint_log e id l (put t c s) = (put t c (fst (mint_log e id l s)), snd (mint_log e id l s)).
Proof.
  induction l as [|r l IH]; intros id s; [reflexivity|]. cbn [mint_log]. rewrite add_put.
  destruct (add_transaction _ _ s) as [s1 []]; cbn [fst snd]; [apply IH|reflexivity..].
Qed.
Lemma mint_insert_put t c l : forall id s, mint_insert id l (put t c s) = put t c (mint_insert id l s).
Proof. induction l as [|r l IH]; intros id s; [reflexivity|]. cbn [mint_insert]. rewrite <- IH. reflexivity. Qed.
Lemma memos_put t c s l : check_memos (put t c s) l = check_memos s l.
Proof. induction l as [|r l IH]; [reflexivity|]. cbn [check_memos]. rewrite IH. reflexivity. Qed.
Lemma mint_blind e l : blind (mint_body e l).
Proof.
  apply put_pair. intros t c s. unfold mint_body. change (cfg (put t c s)) with (cfg s).
  destruct (_ <? _); [reflexivity|]. change (tokens (put t c s)) with (tokens s). destruct (_ <? _); [reflexivity|]. rewrite memos_put.
  destruct (check_memos s l) as [[]|]; try reflexivity.
  change (metas (put t c s)) with (metas s). change (last_id (put t c s)) with (last_id s).
  destruct (mint_metadata _ l _) as [m|]; [|reflexivity].
  change (set_metas m (put t c s)) with (put t c (set_metas m s)). rewrite mint_log_put.
  destruct (mint_log _ _ l (set_metas m s)) as [s2 [msg|]]; cbn [fst snd]; [reflexivity|].
  change (set_last_id ?x (put t c s2)) with (put t c (set_last_id x s2)). rewrite mint_insert_put. reflexivity.
Qed.
Lemma burn_blind e k : blind (burn_body e k).
Proof.
  apply put_pair. intros t c s. unfold burn_body. change (tokens (put t c s)) with (tokens s).
  destruct (tokens s !! k) as [tok|]; [|reflexivity]. destruct (negb _); [reflexivity|]. rewrite add_put.
  destruct (add_transaction _ _ s) as [s1 []]; reflexivity.
Qed.
Lemma update_blind e k kvs : blind (update_nft_metadata_body e k kvs).
Proof.
  apply put_pair. intros t c s. unfold update_nft_metadata_body. change (tokens (put t c s)) with (tokens s).
  destruct (tokens s !! k) as [tok|]; [|reflexivity]. change (metas (put t c s)) with (metas s).
  destruct (replace_metadata _ _ _) as [m|]; [|reflexivity]. cbv zeta.
  change (set_metas m (put t c s)) with (put t c (set_metas m s)). change (metas (put t c (set_metas m s))) with m.
  change (metas (set_metas m s)) with m. rewrite add_put.
  destruct (add_transaction _ _ (set_metas m s)) as [s1 []]; reflexivity.
Qed.
Lemma entry_blind e t c s first :
  (forall z, first (put t c z) = (put t c (fst (first z)), snd (first z))) ->
  ans_upload (upload_entry e (put t c s) first) =
    (put t c (fst (ans_upload (upload_entry e s first))), snd (ans_upload (upload_entry e s first))).
Proof.
  intros F. unfold upload_entry. change (has_permission (put t c s)) with (has_permission s). destruct (has_permission _ _ _); [|reflexivity].
  rewrite !guard_new_spec. change (guards (put t c s)) with (guards s). destruct (decide _); [|reflexivity].
  change (set_guards {[e_caller e]} (put t c s)) with (put t c (set_guards {[e_caller e]} s)).
  rewrite F. destruct (first _) as [s2 [er|p]]; reflexivity.
Qed.

(** Calls that have nothing to do with approvals. *)
Definition other_call (o : op) : bool :=
  match o with
  | OApproveTokens _ | OApproveCollection _ | ORevokeTokens _ | ORevokeCollection _ | OTransferFrom _ => false
  | _ => true
  end.

Lemma step_other e o t c s : other_call o = true -> step e o (put t c s) = (put t c (fst (step e o s)), snd (step e o s)).
Proof.
  intros F. destruct o; try discriminate F.
  - cbn [step]. unfold icrc7_transfer. destruct args as [|a0 l0]; [reflexivity|]. change (cfg (put t c s)) with (cfg s).
    destruct (usize_try _) as [mx|]; [|reflexivity]. destruct (_ && _); [reflexivity|]. destruct (bool_decide _); [reflexivity|].
    destruct (items_blind _ (transfer_blind e) (take_n mx (a0 :: l0)) t c s) as [-> _]. destruct (run_items _ _ _) as [[]|]; reflexivity.
  - cbn [step]. unfold update_collection_metadata, with_permission. change (has_permission (put t c s)) with (has_permission s).
    destruct (has_permission _ _ _); [|reflexivity]. rewrite !(with_lock_eq _ _ _ (commutes_cfg u)).
    change (guards (put t c s)) with (guards s). destruct (decide _); reflexivity.
  - cbn [step]. unfold mint, with_permission. change (has_permission (put t c s)) with (has_permission s).
    destruct (has_permission _ _ _); [|reflexivity]. rewrite !(with_lock_eq _ _ _ (commutes_mint e reqs)).
    change (guards (put t c s)) with (guards s). destruct (decide _); [|reflexivity]. destruct (mint_blind e reqs t c s) as [-> _].
    destruct (mint_body _ _ _) as [[? []]|]; reflexivity.
  - cbn [step]. unfold update_nft_metadata, with_permission. change (has_permission (put t c s)) with (has_permission s).
    destruct (has_permission _ _ _); [|reflexivity]. rewrite !(with_lock_eq _ _ _ (commutes_update e tid kvs)).
    change (guards (put t c s)) with (guards s). destruct (decide _); [|reflexivity]. destruct (update_blind e tid kvs t c s) as [-> _].
    destruct (update_nft_metadata_body _ _ _ _) as [[? []]|]; reflexivity.
  - cbn [step]. unfold burn_nft. rewrite !(with_lock_eq _ _ _ (commutes_burn e tid)).
    change (guards (put t c s)) with (guards s). destruct (decide _); [|reflexivity]. destruct (burn_blind e tid t c s) as [-> _].
    destruct (burn_body _ _ _) as [[? [|[]|]]|]; reflexivity.
  - rewrite !step_grant. change (has_permission (put t c s)) with (has_permission s). change (guards (put t c s)) with (guards s).
    destruct (has_permission _ _ _); [|reflexivity]. destruct (decide _); reflexivity.
  - rewrite !step_revoke_perm. change (has_permission (put t c s)) with (has_permission s). change (guards (put t c s)) with (guards s).
    destruct (has_permission _ _ _); [|reflexivity]. destruct (decide _); reflexivity.
  - apply entry_blind. intros z. unfold init_upload_first. change (contains_path (put t c z)) with (contains_path z).
    destruct (contains_path z path); [reflexivity|]. destruct (_ <? _); reflexivity.
  - apply entry_blind. intros z. unfold store_chunk_first. change (files (put t c z)) with (files z). change (subs (put t c z)) with (subs z).
    destruct (files z !! path) as [u|]; [|reflexivity]. destruct (u_state u); try destruct (bool_decide _); reflexivity.
  - apply entry_blind. intros z. unfold finalize_upload_first. change (files (put t c z)) with (files z). change (subs (put t c z)) with (subs z).
    destruct (files z !! path) as [u|]; [|reflexivity]. destruct (u_state u); try destruct (bool_decide _); reflexivity.
  - apply entry_blind. intros z. unfold cancel_upload_first. change (files (put t c z)) with (files z). change (subs (put t c z)) with (subs z).
    destruct (files z !! path) as [u|]; [|reflexivity]. destruct (u_state u); try destruct (bool_decide _); reflexivity.
  - cbn [step]. unfold resume. change (pend (put t c s)) with (pend s). destruct (pend s !! id) as [p|]; [|reflexivity].
    destruct p, r; reflexivity.
  - cbn [step fst snd]. rewrite !upgrade_eq. reflexivity.
Qed.
Lemma other_same e o s : other_call o = true -> tok_appr (fst (step e o s)) = tok_appr s /\ col_appr (fst (step e o s)) = col_appr s.
Proof.
  intros F. assert (E : s = put (tok_appr s) (col_appr s) s) by (destruct s; reflexivity).
  rewrite E at 1 3. rewrite (step_other e o _ _ s F). split; reflexivity.
Qed.

(** ** One message *)

(** Two ledgers with the same approvals in force treat a call alike, as long as there is room for the approvals it makes: it gets
    the same answer, and afterwards the same approvals are in force. *)
Theorem C158_step e o now s s' :
  now <= e_now e -> same_force now s s' -> not_crowded o (snd (step e o s)) -> not_crowded o (snd (step e o s')) ->
  snd (step e o s) = snd (step e o s') /\ same_force (e_now e) (fst (step e o s)) (fst (step e o s')).
Proof.
  intros L F N N'. apply (same_force_later _ _ _ _ L) in F. clear L now.
  destruct (other_call o) eqn:O.
  { apply same_force_put in F as (t & c & -> & T & C). rewrite (step_other e o t c s O). split; [reflexivity|]. apply same_force_put.
    exists t, c. destruct (other_same e o s O) as [-> ->]. split; [reflexivity|]. split; assumption. }
  destruct o; try discriminate O; cbn [step] in *.
  - unfold icrc37_approve_tokens in *.
    destruct (run_items _ s _) as [[s1 rs]|] eqn:E; [|destruct (N args eq_refl)]. destruct (run_items _ s' _) as [[s1' rs']|] eqn:E'; [|destruct (N' args eq_refl)].
    cbn [ans_batch fst snd not_crowded] in *.
    destruct (items_keep _ _ (approve_keeps e) _ _ _ _ _ _ _ F E E' N N') as [-> F1]. split; [reflexivity|exact F1].
  - unfold icrc37_approve_collection in *.
    destruct (total_items _ (approve_coll_total e) args s) as (s1 & rs & E), (total_items _ (approve_coll_total e) args s') as (s1' & rs' & E').
    rewrite E in *. rewrite E' in *. cbn [ans_batch fst snd not_crowded] in *.
    destruct (items_keep _ _ (approve_coll_keeps e) _ _ _ _ _ _ _ F E E' N N') as [-> F1]. split; [reflexivity|exact F1].
  - unfold icrc37_revoke_token_approvals in *. destruct args as [|a0 l0]; [split; [reflexivity|exact F]|].
    guarded F (e_now e) (rv_tid a0) s s'. destruct pass; cbn [negb] in *; [|rewrite (msg_keeps _ _ _ _ _ F0); split; [reflexivity|exact F0]].
    destruct (rest_eq _ _ _ F0) as (Ec & _). rewrite Ec in *. set (l := take_n _ _) in *.
    destruct (total_items _ (revoke_total e) l s0) as (s1 & rs & E1), (total_items _ (revoke_total e) l s0') as (s1' & rs' & E1').
    rewrite E1 in *. rewrite E1' in *. cbn [ans_batch fst snd not_crowded] in *.
    destruct (items_keep _ _ (revoke_keeps e) _ _ _ _ _ _ _ F0 E1 E1' N N') as [-> F1]. split; [reflexivity|exact F1].
  - unfold icrc37_revoke_collection_approvals in *. destruct (rest_eq _ _ _ F) as (Ec & _). rewrite Ec in *. set (l := take_n _ _) in *.
    destruct (total_items _ (revoke_coll_total e) l s) as (s1 & rs & E), (total_items _ (revoke_coll_total e) l s') as (s1' & rs' & E').
    rewrite E in *. rewrite E' in *. cbn [ans_batch fst snd not_crowded] in *.
    destruct (items_keep _ _ (revoke_coll_keeps e) _ _ _ _ _ _ _ F E E' N N') as [-> F1]. split; [reflexivity|exact F1].
  - unfold icrc37_transfer_from in *.
    destruct (total_items _ (from_total e) args s) as (s1 & rs & E), (total_items _ (from_total e) args s') as (s1' & rs' & E').
    rewrite E in *. rewrite E' in *. cbn [ans_batch fst snd not_crowded] in *.
    destruct (items_keep _ _ (from_keeps e) _ _ _ _ _ _ _ F E E' N N') as [-> F1]. split; [reflexivity|exact F1].
Qed.
Print Assumptions C158_step.

(** ** Histories *)

(** As long as there is room for the approvals made, nobody notices by any answer to a call whether the approvals that have expired
    are still kept. *)
Theorem C158_history h now s s' :
  clock now h -> same_force now s s' ->
  Forall (fun ev => not_crowded (ev_op ev) (ev_ans ev)) (trace h s) ->
  Forall (fun ev => not_crowded (ev_op ev) (ev_ans ev)) (trace h s') ->
  map ev_ans (trace h s) = map ev_ans (trace h s') /\ same_force (end_time now h) (run h s) (run h s').
Proof.
  revert now s s'. induction h as [|[e o] h IH]; intros now s s' L F N N'; [split; [reflexivity|exact F]|].
  cbn [trace run clock] in *. destruct L as [L1 L2].
  assert (X := C158_step e o now s s' L1 F). destruct (step e o s) as [s1 a], (step e o s') as [s1' a'].
  apply Forall_cons_1 in N as [N1 N2]. apply Forall_cons_1 in N' as [N1' N2']. cbn [ev_op ev_ans fst snd] in *.
  destruct (X N1 N1') as [-> F1]. destruct (IH _ _ _ L2 F1 N2 N2') as [A F2]. cbn [map ev_ans]. split; [congruence|].
  replace (end_time now ((e, o) :: h)) with (end_time (e_now e) h); [exact F2|].
  unfold end_time. destruct h as [|p h]; [reflexivity|]. change (last ((e, o) :: p :: h)) with (last (p :: h)).
  destruct (last (p :: h)) eqn:Z; [reflexivity|]. apply last_None in Z. discriminate.
Qed.
Print Assumptions C158_history.

(** ** Cleaning up *)

(** The ledger without the approvals that have expired at [now]. *)
Definition cleaned (now : N) (s : state) : state :=
  put ((fun m : appmap => filter (fun kx => in_force now (Some (snd kx)) <> None) m) <$> tok_appr s)
      ((fun m : appmap => filter (fun kx => in_force now (Some (snd kx)) <> None) m) <$> col_appr s) s.

Lemma force_filter (now : N) (m : appmap) : force_map now m (filter (fun kx => in_force now (Some (snd kx)) <> None) m).
Proof.
  intros k. destruct (m !! k) as [x|] eqn:E.
  - destruct (in_force now (Some x)) as [ap|] eqn:I.
    + rewrite (map_filter_lookup_Some_2 _ _ _ x); [symmetry; exact I|exact E|]. cbn [snd]. rewrite I. discriminate.
    + rewrite map_filter_lookup_None_2; [reflexivity|]. right. intros y Y. rewrite E in Y. injection Y as <-. cbn [snd]. rewrite I. tauto.
  - rewrite map_filter_lookup_None_2; [reflexivity|]. left. exact E.
Qed.
Lemma force_fmap {K : Type} `{Countable K} (now : N) (M : gmap K appmap) k :
  force_opt now (M !! k) (((fun m : appmap => filter (fun kx => in_force now (Some (snd kx)) <> None) m) <$> M) !! k).
Proof. rewrite lookup_fmap. destruct (M !! k); cbn; [apply force_filter|exact Logic.I]. Qed.

Lemma clean_force now s : same_force now s (cleaned now s).
Proof. apply same_force_put. eexists _, _. split; [reflexivity|]. split; intros k; apply force_fmap. Qed.

(** Clearing out the expired approvals at any moment changes no later answer, as long as there is room for the approvals made. *)
Theorem C158_clean h now s :
  clock now h ->
  Forall (fun ev => not_crowded (ev_op ev) (ev_ans ev)) (trace h s) ->
  Forall (fun ev => not_crowded (ev_op ev) (ev_ans ev)) (trace h (cleaned now s)) ->
  map ev_ans (trace h s) = map ev_ans (trace h (cleaned now s)).
Proof.
  intros L N N'. exact (proj1 (C158_history h now s (cleaned now s) L (clean_force now s) N N')).
Qed.
Print Assumptions C158_clean.

(** ** Room *)

(** Expired approvals do take up room.  With at most one approval per token, the approval of bob that has expired stands in the way of
    one for carol, until bob has been refused. *)
Theorem C158_room_refuted :
  let s := run (demo1_h ++ [(from_ alice 1000000000, OApproveTokens [appr 1 bob 1000000000 (Some (t0 + 2000000000))])])
             (demo_init one_appr_args) in
  let e := from_ alice 5000000000 in
  let o := OApproveTokens [appr 1 carol 5000000000 None] in
  let s' := fst (step (from_ bob 3000000000) (OTransferFrom [tfrom alice carol 1]) s) in
  reachable s /\ reachable s' /\
  approvals_on s 1 <> [] /\ Forall (fun x => a_expires x = Some (t0 + 2000000000)) (approvals_on s 1) /\
  snd (step (from_ bob 3000000000) (OTransferFrom [tfrom alice carol 1]) s) = ABatch [Err EUnauthorized] /\
  snd (step e o s) = ABatch [Err (EGeneric 1 "Maximum approvals per token exceeded")] /\
  snd (step e o (cleaned (e_now e) s)) = ABatch [Ok 4] /\
  snd (step e o s') = ABatch [Ok 4].
Proof.
  cbv zeta.
  assert (R : reachable (run (demo1_h ++ [(from_ alice 1000000000, OApproveTokens [appr 1 bob 1000000000 (Some (t0 + 2000000000))])])
             (demo_init one_appr_args))).
  { exists admin, (fun _ => true), one_appr_args, (demo_init one_appr_args). eexists. split; reflexivity. }
  split; [exact R|]. split; [apply run_reachable_step, R|].
  split; [vm_compute; discriminate|]. split; [vm_compute; repeat constructor|].
  split; [vm_compute; reflexivity|]. split; [vm_compute; reflexivity|]. split; vm_compute; reflexivity.
Qed.
Print Assumptions C158_room_refuted.

(** ** Example *)

(** carol's approval of alice's tokens has expired when she tries it; bob's is in force. *)
Example C158_example :
  let now := t0 + 9000000000 in
  let h := [(from_ carol 9000000000, OTransferFrom [tfrom alice carol 2]);
            (from_ alice 9000000000, OApproveTokens [appr 2 carol 9000000000 None]);
            (from_ bob 9500000000, OTransferFrom [tfrom alice bob 1]);
            (from_ carol 11000000000, OTransferFrom [tfrom alice carol 2])] in
  reachable demo2 /\ clock now h /\ same_force now demo2 (cleaned now demo2) /\
  approvals_of demo2 (acct alice) <> [] /\ approvals_of (cleaned now demo2) (acct alice) = [] /\
  map ev_ans (trace h demo2) = [ABatch [Err EUnauthorized]; ABatch [Ok 5]; ABatch [Ok 6]; ABatch [Ok 7]] /\
  map ev_ans (trace h (cleaned now demo2)) = [ABatch [Err EUnauthorized]; ABatch [Ok 5]; ABatch [Ok 6]; ABatch [Ok 7]] /\
  Forall (fun a => forall o, not_crowded o a) [ABatch [Err EUnauthorized]; ABatch [Ok 5]; ABatch [Ok 6]; ABatch [Ok 7]].
Proof.
  cbv zeta. split; [apply demo_reachable|]. split; [vm_compute; repeat split; discriminate|]. split; [apply clean_force|].
  split; [vm_compute; discriminate|]. split; [vm_compute; reflexivity|]. split; [vm_compute; reflexivity|]. split; [vm_compute; reflexivity|].
  repeat constructor; intros er X; try discriminate X; injection X as <-; intros [Y|Y]; discriminate Y.
Qed.
