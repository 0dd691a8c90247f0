(** C150: repeating a call whose answer was lost does nothing a second time. *)
From Verif Require Import Base ModelPrincipal ModelState ModelIcrc7 ModelIcrc37 ModelManagement ModelLifecycle
  ModelQueries ModelStep ProofsItems ProofsManage ProofsMicro Spec ProofsCore ProofsMeta Scenario PropertiesMirror.

(** ** What a call can change *)

(** The things a ledger remembers for its users: who owns a token, who may spend it or a collection, who holds a permission, what
    is said about a token, the settings, the uploads and the redirections. *)
Inductive cell :=
| COwner (t : N)
| CSpend (t : N) (sp : account)
| CSpendAll (ow sp : account)
| CPermission (p : principal) (q : permission)
| CMeta (t : N) (k : string)
| CSettings
| CFile (k : string)
| CRedirection (k : string).

(** What is found there; an approval is told by its expiry and is not there once it has expired. *)
Inductive reading :=
| ROwner (x : option account)
| RSpend (x : option (option N))
| RPermission (b : bool)
| RMeta (x : option value)
| RSettings (c : config)
| RFile (x : option upload)
| RRedirection (x : option string).

Definition until (x : option N) (at_ : N) : option (option N) :=
  match x with
  | Some y => if y <=? at_ then None else Some x
  | None => Some None
  end.
Definition spend_until (m : option appmap) (sp : account) (at_ : N) : option (option N) :=
  match m with
  | Some m => match m !! akey sp with Some (_, ap) => until (a_expires ap) at_ | None => None end
  | None => None
  end.

Definition read (at_ : N) (c : cell) (s : state) : reading :=
  match c with
  | COwner t => ROwner (owner_of s t)
  | CSpend t sp => RSpend (spend_until (tok_appr s !! t) sp at_)
  | CSpendAll ow sp => RSpend (spend_until (col_appr s !! akey ow) sp at_)
  | CPermission p q => RPermission (has_permission s p q)
  | CMeta t k => RMeta (meta_of s t k)
  | CSettings => RSettings (cfg s)
  | CFile k => RFile (files s !! k)
  | CRedirection k => RRedirection (redirs s !! k)
  end.

(** Calls that a user may repeat: all but minting; replies and upgrades are not calls of users. *)
Definition repeatable (o : op) : Prop :=
  match o with OMint _ | OReply _ _ | OUpgrade => False | _ => True end.

(** No two items of a batch give values to the same thing. *)
Definition distinct_items (o : op) : Prop :=
  match o with
  | OTransfer l => NoDup (map ta_tid l)
  | OTransferFrom l => NoDup (map tf_tid l)
  | OApproveTokens l => NoDup (map (fun a => (ap_tid a, akey (ai_spender (ap_info a)))) l)
  | OApproveCollection l => NoDup (map (fun i => (eff_sub (mkAcc [] (ai_from_sub i)), akey (ai_spender i))) l)
  | _ => True
  end.

(** ** A call assigns *)

(** The values a call may give to a cell; they do not depend on the state. *)
Definition target (at_ : N) (o : op) (c : cell) (v : reading) : Prop :=
  match c, o with
  | COwner t, OTransfer l => exists a, a ∈ l /\ ta_tid a = t /\ v = ROwner (Some (ta_to a))
  | COwner t, OTransferFrom l => exists a, a ∈ l /\ tf_tid a = t /\ v = ROwner (Some (tf_to a))
  | COwner _, OBurn _ => v = ROwner None
  | CSpend t sp, OApproveTokens l =>
      exists a, a ∈ l /\ ap_tid a = t /\ akey (ai_spender (ap_info a)) = akey sp /\ v = RSpend (until (ai_expires (ap_info a)) at_)
  | CSpend _ _, ORevokeTokens _ | CSpend _ _, OTransferFrom _ => v = RSpend None
  | CSpendAll ow sp, OApproveCollection l =>
      exists i, i ∈ l /\ eff_sub (mkAcc [] (ai_from_sub i)) = eff_sub ow /\ akey (ai_spender i) = akey sp /\
        v = RSpend (until (ai_expires i) at_)
  | CSpendAll _ _, ORevokeCollection _ | CSpendAll _ _, OTransferFrom _ => v = RSpend None
  | CPermission _ _, OGrant _ _ => v = RPermission true
  | CPermission _ _, ORevokePerm _ _ => v = RPermission false
  | CMeta _ k, OUpdateMeta _ kvs => v = RMeta (last_value kvs k)
  | CFile _, OStoreChunk _ | CFile _, OFinalize _ | CFile _, OCancel _ => v = RFile None
  | _, _ => False
  end.

Lemma nodup_key {A B} (f : A -> B) l a b : NoDup (map f l) -> a ∈ l -> b ∈ l -> f a = f b -> a = b.
Proof.
  induction l as [|x l IH]; intros N Ha Hb E; [inversion Ha|].
  cbn in N. apply NoDup_cons in N as [Nx N]. apply elem_of_cons in Ha, Hb.
  destruct Ha as [->|Ha], Hb as [->|Hb]; auto.
  - exfalso. apply Nx. rewrite E. apply elem_of_list_fmap_1. exact Hb.
  - exfalso. apply Nx. rewrite <- E. apply elem_of_list_fmap_1. exact Ha.
Qed.

Lemma target_unique at_ o c v w : distinct_items o -> target at_ o c v -> target at_ o c w -> v = w.
Proof.
  intros D. destruct c, o; cbn; try contradiction; intros V W; subst; try reflexivity; cbn in D.
  all: destruct V as (a & Ha & V), W as (b & Hb & W).
  - destruct V as (Ta & ->), W as (Tb & ->). replace b with a; [reflexivity|].
    eapply (nodup_key ta_tid); eauto. congruence.
  - destruct V as (Ta & ->), W as (Tb & ->). replace b with a; [reflexivity|].
    eapply (nodup_key tf_tid); eauto. congruence.
  - destruct V as (Ta & Sa & ->), W as (Tb & Sb & ->). replace b with a; [reflexivity|].
    eapply (nodup_key (fun a => (ap_tid a, akey (ai_spender (ap_info a))))); eauto. cbn. congruence.
  - destruct V as (Ta & Sa & ->), W as (Tb & Sb & ->). replace b with a; [reflexivity|].
    eapply (nodup_key (fun i => (eff_sub (mkAcc [] (ai_from_sub i)), akey (ai_spender i)))); eauto. cbn. congruence.
Qed.

Lemma has_valid_until now at_ ap : now <= at_ -> unexpired now ap = false -> until (a_expires ap) at_ = None.
Proof.
  intros L. unfold unexpired, until. destruct (a_expires ap) as [x|]; [|discriminate]. intros E. apply N.ltb_ge in E.
  destruct (N.leb_spec x at_) as [|G]; [reflexivity|lia].
Qed.

Lemma drop_expired_spend {K} `{Countable K} (now at_ : N) (k j : K) (sp x : account) (M : gmap K appmap) :
  now <= at_ -> spend_until (drop_expired now k (akey sp) M !! j) x at_ = spend_until (M !! j) x at_.
Proof.
  intros L. unfold drop_expired. destruct (M !! k) as [m|] eqn:Mk; [|reflexivity].
  destruct (m !! akey sp) as [[q ap]|] eqn:S; [|reflexivity].
  destruct (unexpired now ap) eqn:U; [reflexivity|].
  destruct (decide (j = k)) as [->|Nj]; [|rewrite lookup_insert_ne by auto; reflexivity].
  rewrite lookup_insert, Mk. cbn. destruct (decide (akey x = akey sp)) as [->|Nx].
  - rewrite lookup_delete, S. symmetry. eapply has_valid_until; eauto.
  - rewrite lookup_delete_ne by auto. reflexivity.
Qed.

Lemma spend_insert sp a m x at_ :
  spend_until (Some (appmap_insert sp a m)) x at_ =
    if decide (akey sp = akey x) then until (a_expires a) at_ else spend_until (Some m) x at_.
Proof.
  unfold appmap_insert, spend_until. destruct (m !! akey sp) as [[k b]|]; destruct (decide (akey sp = akey x)) as [E|E].
  all: rewrite <- ?E, ?lookup_insert; try reflexivity; rewrite lookup_insert_ne by auto; reflexivity.
Qed.

Lemma spend_default m x at_ : spend_until (Some (default ∅ m)) x at_ = spend_until m x at_.
Proof. destruct m; cbn; [reflexivity|]. rewrite lookup_empty. reflexivity. Qed.

Lemma spend_revoke sp m x at_ : spend_until (Some (revoke_from sp m)) x at_ = spend_until (Some m) x at_ \/
  spend_until (Some (revoke_from sp m)) x at_ = None.
Proof.
  destruct sp as [sp|]; cbn [revoke_from].
  - unfold spend_until. destruct (decide (akey sp = akey x)) as [<-|E].
    + rewrite lookup_delete. auto.
    + rewrite lookup_delete_ne by auto. auto.
  - right. unfold spend_until. rewrite lookup_empty. reflexivity.
Qed.

(** One elementary change leaves a cell as it was or gives it a value of the call. *)
Lemma micro_assigns at_ e o c s s' :
  wf s -> e_now e <= at_ -> repeatable o -> c <> CSettings -> micro e o s s' ->
  read at_ c s' = read at_ c s \/ target at_ o c (read at_ c s').
Proof.
  intros W L R C H. destruct H; try contradiction; open_quiet.
  - left. destruct c; reflexivity.
  - destruct c; try (left; reflexivity). destruct (decide (t = ta_tid a)) as [->|Nt].
    + right. cbn. exists a. split; [assumption|]. split; [reflexivity|]. f_equal. unfold owner_of. rewrite tokens_move.
      rewrite (wf_id _ W _ _ H1), lookup_insert. reflexivity.
    + left. cbn. f_equal. unfold owner_of. rewrite tokens_move, (wf_id _ W _ _ H1), lookup_insert_ne by auto. reflexivity.
  - destruct c; try (left; reflexivity). cbn [read target]. destruct (decide (t = ap_tid a)) as [->|Nt].
    + cbn. rewrite lookup_insert, spend_insert, spend_default. destruct (decide _) as [E|E]; [right|left; reflexivity].
      exists a. auto.
    + left. cbn. rewrite lookup_insert_ne by auto. reflexivity.
  - destruct c; try (left; reflexivity). cbn [read target].
    destruct (decide (akey ow = akey (mkAcc (e_caller e) (ai_from_sub a)))) as [E0|Nt].
    + cbn. rewrite E0, lookup_insert, spend_insert, spend_default. destruct (decide _) as [E|E]; [right|left; reflexivity].
      exists a. splits; auto. unfold akey in E0. injection E0 as _ E0. rewrite E0. reflexivity.
    + left. cbn. rewrite lookup_insert_ne by auto. reflexivity.
  - destruct c; try (left; reflexivity). cbn [read target]. destruct (decide (t = rv_tid a)) as [->|Nt].
    + cbn. rewrite lookup_insert, H3. destruct (spend_revoke (rv_spender a) m sp at_) as [->| ->]; auto.
    + left. cbn. rewrite lookup_insert_ne by auto. reflexivity.
  - destruct c; try (left; reflexivity). cbn [read target]. destruct (decide (akey ow = akey (mkAcc (e_caller e) None))) as [E|Nt].
    + cbn. rewrite E, lookup_insert, H1. destruct (spend_revoke (rc_spender a) m sp at_) as [->| ->]; auto.
    + left. cbn. rewrite lookup_insert_ne by auto. reflexivity.
  - left. destruct c; try reflexivity; cbn; rewrite drop_expired_spend by exact L; reflexivity.
  - destruct c; try (left; reflexivity).
    + destruct (decide (t = tf_tid a)) as [->|Nt].
      * right. cbn. exists a. split; [assumption|]. split; [reflexivity|]. f_equal. unfold owner_of. cbn.
        rewrite (wf_id _ W _ _ H1), lookup_insert. reflexivity.
      * left. cbn. f_equal. unfold owner_of. cbn. rewrite (wf_id _ W _ _ H1), lookup_insert_ne by auto. reflexivity.
    + cbn. destruct (decide (t = tf_tid a)) as [->|Nt].
      * right. rewrite lookup_delete. reflexivity.
      * left. rewrite lookup_delete_ne by auto. rewrite drop_expired_spend by exact L. reflexivity.
    + cbn. destruct (decide (akey ow = akey (tf_from a))) as [->|Nt].
      * right. rewrite lookup_delete. reflexivity.
      * left. rewrite lookup_delete_ne by auto. rewrite drop_expired_spend by exact L. reflexivity.
  - left. destruct c; try reflexivity. contradiction.
  - destruct c; try (left; reflexivity). cbn. destruct (replace_metadata_spec _ _ _ _ H2) as [A B].
    unfold meta_of. cbn. destruct (decide (t = t_id tok)) as [->|Nt]; [right; rewrite B; reflexivity|left; rewrite A by exact Nt; reflexivity].
  - destruct c; try (left; reflexivity). cbn. destruct (replace_metadata_spec _ _ _ _ H2) as [A B].
    unfold meta_of. cbn. destruct (decide (t = t_id tok)) as [->|Nt]; [right; rewrite B; reflexivity|left; rewrite A by exact Nt; reflexivity].
  - destruct c; try (left; reflexivity). cbn. unfold owner_of. cbn. destruct (decide (t = tid)) as [->|Nt].
    + right. rewrite lookup_delete. reflexivity.
    + left. rewrite lookup_delete_ne by auto. reflexivity.
  - destruct c; try (left; reflexivity). cbn. unfold has_permission. cbn. unfold perm_grant.
    destruct (decide (p0 = p)) as [->|Np]; [|left; rewrite lookup_insert_ne by auto; reflexivity].
    rewrite lookup_insert. destruct (decide (q = perm)) as [->|Nq].
    + right. f_equal. apply bool_decide_eq_true. apply elem_of_app. right. apply elem_of_list_singleton. reflexivity.
    + left. f_equal. destruct (perms s !! p) as [l|]; cbn; apply bool_decide_ext || idtac.
      * rewrite elem_of_app, elem_of_list_singleton. tauto.
      * apply bool_decide_eq_false. rewrite elem_of_list_singleton. auto.
  - destruct c; try (left; reflexivity). cbn. unfold has_permission. cbn. unfold perm_revoke.
    destruct (perms s !! p) as [l|] eqn:E; [|left; reflexivity].
    destruct (decide (p0 = p)) as [->|Np]; [|left; rewrite lookup_insert_ne by auto; reflexivity].
    rewrite lookup_insert, E. destruct (decide (q = perm)) as [->|Nq].
    + right. f_equal. apply bool_decide_eq_false. rewrite elem_of_list_filter. tauto.
    + left. f_equal. apply bool_decide_ext. rewrite elem_of_list_filter. tauto.
  - destruct H as [[k ->]|[[k ->]|[k ->]]]; (destruct c; try (left; reflexivity)); cbn;
      (destruct (decide (k0 = key)) as [->|Nk]; [right; rewrite lookup_delete; reflexivity|left; rewrite lookup_delete_ne by auto; reflexivity]).
  - left. destruct c; reflexivity.
Qed.

Lemma step_assigns at_ e o c s :
  wf s -> e_now e <= at_ -> repeatable o -> c <> CSettings ->
  read at_ c (fst (step e o s)) = read at_ c s \/ target at_ o c (read at_ c (fst (step e o s))).
Proof.
  intros W L R C.
  apply (step_rel wf (fun s s' => read at_ c s' = read at_ c s \/ target at_ o c (read at_ c s'))); [auto| |..|exact W].
  - intros x y z [E|E] [F|F]; auto; [left; congruence|right; rewrite F; exact E].
  - intros x y Wx M. split; [eapply wf_micro; eauto|]. eapply micro_assigns; eauto.
Qed.

Lemma update_twice u c : apply_update u (apply_update u c) = apply_update u c.
Proof.
  assert (U : forall A (x y : option A), upd x (upd x y) = upd x y) by (intros A [] []; reflexivity).
  assert (V : forall A (x : option A) y, default (default y x) x = default y x) by (intros A [] y; reflexivity).
  unfold apply_update. cbn. rewrite !U, !V. reflexivity.
Qed.

Lemma step_settings e o s : repeatable o ->
  cfg (fst (step e o s)) = cfg s \/ exists u, o = OUpdateCollection u /\ cfg (fst (step e o s)) = apply_update u (cfg s).
Proof.
  intros R. destruct o as [| | | | | |u| | | | | | | | | | |].
  7: { cbn [step]. unfold update_collection_metadata, with_permission. destruct (has_permission _ _ _); [|left; reflexivity].
    rewrite with_lock_eq by apply commutes_cfg. destruct (decide _); [right; exists u; split; reflexivity|left; reflexivity]. }
  all: left; apply (step_rel (fun _ => True) (fun s s' => cfg s' = cfg s)); auto; try congruence;
    intros x y _ M; (split; [exact Logic.I|]); inversion M; subst; open_quiet; try reflexivity; contradiction.
Qed.

(** ** The same call again *)

(** Of two executions of a call only one has an effect on any of the things the ledger remembers: what the first changed the
    second leaves alone, whatever the clock, the rate limiter and the log say to either. *)
Theorem C150_repeat_partial at_ e e' o c s :
  reachable s -> repeatable o -> distinct_items o -> e_now e <= at_ -> e_now e' <= at_ ->
  let s1 := fst (step e o s) in
  let s2 := fst (step e' o s1) in
  read at_ c s1 = read at_ c s \/ read at_ c s2 = read at_ c s1.
Proof.
  intros Re R D L L' s1 s2. pose proof (reachable_wf s Re) as W. assert (W1 : wf s1) by (apply step_wf; exact W).
  assert (Dc : c = CSettings \/ c <> CSettings) by (destruct c; (left; reflexivity) || (right; discriminate)).
  destruct Dc as [->|C].
  - cbn [read]. destruct (step_settings e o s R) as [E|(u & -> & E)]; [left; f_equal; exact E|].
    right. f_equal. destruct (step_settings e' _ s1 R) as [F|(u' & [= <-] & F)]; [exact F|].
    fold s1 in E. fold s2 in F. rewrite F, E. apply update_twice.
  - destruct (step_assigns at_ e o c s W L R C) as [E|E]; [left; exact E|].
    destruct (step_assigns at_ e' o c s1 W1 L' R C) as [F|F]; [right; exact F|].
    right. eapply target_unique; eauto.
Qed.
Print Assumptions C150_repeat_partial.

(** ** Uploads: the same call again after the answer *)

(** An upload call refused at once leaves everything as it was. *)
Lemma entry_refused e s first er :
  (forall g, first (set_guards g s) = (set_guards g s, inl er)) -> fst (upload_entry e s first) = s.
Proof.
  intros F. unfold upload_entry. destruct (has_permission _ _ _); [|reflexivity].
  rewrite guard_new_spec. destruct (decide (guards s = ∅)) as [G|G]; [|reflexivity].
  rewrite F. cbn. unfold guard_drop. cbn. replace ({[e_caller e]} ∖ {[e_caller e]}) with (∅ : gset principal) by set_solver.
  rewrite <- G. destruct s; reflexivity.
Qed.

(** Announcing, finishing or cancelling an upload a second time, after the answer that it was done, changes nothing at all. *)
Theorem C150_upload_done e e' id r p o s :
  pend s !! id = Some p -> waits_for p o -> (forall k, o <> OStoreChunk k) ->
  snd (step e (OReply id r) s) = AOk ->
  let s1 := fst (step e (OReply id r) s) in
  fst (step e' o s1) = s1.
Proof.
  intros P Wf Ns A. cbn [step] in *. unfold resume in *. rewrite P in *.
  destruct p as [cl path sn|cl k i c path|cl k i c path|cl k], o; cbn in Wf; try contradiction; subst.
  - destruct r; cbn in A; try discriminate. cbn [continue fst]. unfold init_upload.
    match goal with |- _ = ?x => set (s1 := x) end.
    assert (X : fst (upload_entry e' s1 (init_upload_first e' path0 size)) = s1).
    { apply (entry_refused _ _ _ EFileAlreadyExists). intros g. unfold init_upload_first, contains_path.
      match goal with |- context [existsb ?f ?l] => assert (E : existsb f l = true) end.
      { apply existsb_exists. exists (path0, mkUp (e_now e) UInit canister path0). split; [|apply bool_decide_eq_true; reflexivity].
        apply elem_of_list_In, elem_of_map_to_list. cbn. rewrite lookup_insert. reflexivity. }
      rewrite E. reflexivity. }
    cbn [step]. unfold init_upload, finalize_upload, cancel_upload. destruct (upload_entry _ _ _) as [s2 [[| |]|]]; exact X.
  - destruct (Ns path0 eq_refl).
  - destruct r; cbn in A; try discriminate. cbn [continue fst]. unfold finalize_upload.
    match goal with |- _ = ?x => set (s1 := x) end.
    assert (X : fst (upload_entry e' s1 (finalize_upload_first e' path0)) = s1).
    { apply (entry_refused _ _ _ EUploadAlreadyFinalized). intros g. unfold finalize_upload_first. cbn. rewrite lookup_insert. reflexivity. }
    cbn [step]. unfold init_upload, finalize_upload, cancel_upload. destruct (upload_entry _ _ _) as [s2 [[| |]|]]; exact X.
  - destruct r; cbn in A; try discriminate. cbn [continue fst]. unfold cancel_upload.
    match goal with |- _ = ?x => set (s1 := x) end.
    assert (X : fst (upload_entry e' s1 (cancel_upload_first e' path)) = s1).
    { apply (entry_refused _ _ _ EUploadNotInitialized). intros g. unfold cancel_upload_first. cbn. rewrite lookup_delete. reflexivity. }
    cbn [step]. unfold init_upload, finalize_upload, cancel_upload. destruct (upload_entry _ _ _) as [s2 [[| |]|]]; exact X.
Qed.
Print Assumptions C150_upload_done.

(** Storing a chunk a second time leaves the record of the upload as the first time left it, whatever the storage canister
    answers. *)
Theorem C150_chunk_again e e' e2 id r id2 r2 p k s :
  pend s !! id = Some p -> waits_for p (OStoreChunk k) -> snd (step e (OReply id r) s) = AOk ->
  let s1 := fst (step e (OReply id r) s) in
  let s2 := fst (step e' (OStoreChunk k) s1) in
  id2 = next_pend s1 -> snd (step e' (OStoreChunk k) s1) = APending ->
  let s3 := fst (step e2 (OReply id2 r2) s2) in
  files s2 = files s1 /\ files s3 = files s1 /\ redirs s3 = redirs s1.
Proof.
  intros P Wf A s1 s2 I2 A2 s3.
  assert (F : exists i c path, files s1 !! k = Some (mkUp i UInProgress c path)).
  { subst s1. clear s2 s3 I2 A2. cbn [step] in *. unfold resume in *. rewrite P in *.
    destruct p; cbn in Wf; try contradiction. subst. destruct r; cbn in A; try discriminate.
    cbn. rewrite lookup_insert. eauto. }
  clearbody s1. destruct F as (i & c & path & F).
  assert (E : s2 = set_next_pend (next_pend s1 + 1) (set_pend (<[next_pend s1 := PStore (e_caller e') k i c path]> (pend s1))
                (set_guards {[e_caller e']} s1))).
  { subst s2. clear s3. cbn [step] in *. destruct (store_chunk e' s1 k) as [s2 u] eqn:S. unfold store_chunk in S.
    apply upload_entry_inv in S; [|intros; apply store_first_guards].
    destruct S as [(-> & er & -> & _)|(G & _ & [(er & S & ->)|(s' & p' & S & -> & ->)])].
    - destruct er; discriminate.
    - discriminate.
    - cbn. unfold store_chunk_first in S. rewrite F in S. cbn in S. destruct (bool_decide _) in S; [|discriminate].
      injection S as <- <-. reflexivity. }
  split; [rewrite E; reflexivity|]. subst s3. rewrite E. cbn [step]. unfold resume. cbn [pend set_next_pend set_pend]. subst id2.
  rewrite lookup_insert. destruct r2; cbn; try (split; reflexivity).
  split; [|reflexivity]. apply map_eq. intros j. destruct (decide (j = k)) as [->|N].
  - rewrite lookup_insert, F. reflexivity.
  - rewrite lookup_insert_ne by auto. reflexivity.
Qed.
Print Assumptions C150_chunk_again.

(** ** What does not hold *)

(** Minting is done a second time: there is no way to tell the ledger that a mint is the repetition of another one. *)
Theorem C150_mint_refuted :
  ~ (forall e e' l t at_ s, reachable s -> e_caller e = e_caller e' -> e_now e <= at_ -> e_now e' <= at_ ->
       let s1 := fst (step e (OMint l) s) in
       let s2 := fst (step e' (OMint l) s1) in
       ((size (tokens s1) = size (tokens s)) \/ (size (tokens s2) = size (tokens s1))) /\
       (read at_ (COwner t) s1 = read at_ (COwner t) s \/ read at_ (COwner t) s2 = read at_ (COwner t) s1)).
Proof.
  intros H. destruct (H (from_ admin 5) (from_ admin 6) [mkMint (acct alice) None []] 5 (t0 + 6) demo1 (demo_reachable demo1_h)
    eq_refl ltac:(vm_compute; discriminate) ltac:(vm_compute; discriminate)) as [[X|X] _]; vm_compute in X; discriminate.
Qed.
Print Assumptions C150_mint_refuted.

(** alice moves token 1 through three of their subaccounts in one call. *)
Definition tour : list transfer_arg :=
  map (fun b => mkTransferArg (mkAcc alice (Some (repeat b 32%nat))) 1 None None None) [1; 2; 3].

(** A batch that moves the same token several times is not covered: the rate limiter can stop the repetition half-way, and the
    token ends elsewhere. *)
Theorem C150_same_token_refuted :
  ~ (forall e e' l t at_ s, reachable s -> e_caller e = e_caller e' -> e_now e <= at_ -> e_now e' <= at_ ->
       let s1 := fst (step e (OTransfer l) s) in
       let s2 := fst (step e' (OTransfer l) s1) in
       read at_ (COwner t) s1 = read at_ (COwner t) s \/ read at_ (COwner t) s2 = read at_ (COwner t) s1).
Proof.
  intros H. destruct (H (from_ alice 5) (from_ alice 6) tour 1 (t0 + 6) demo1 (demo_reachable demo1_h)
    eq_refl ltac:(vm_compute; discriminate) ltac:(vm_compute; discriminate)) as [X|X]; vm_compute in X; discriminate.
Qed.
Print Assumptions C150_same_token_refuted.

(** ** Examples *)

(** bob takes token 1 to carol; the repetition is refused.  carol's approval for the collection, gone with the first, stays gone. *)
Example C150_example :
  let o := OTransferFrom [tfrom alice carol 1] in
  let s1 := fst (step (from_ bob 3000000000) o demo2) in
  let s2 := fst (step (from_ bob 3000000001) o s1) in
  reachable demo2 /\ repeatable o /\ distinct_items o /\
  snd (step (from_ bob 3000000000) o demo2) = ABatch [Ok 5] /\
  snd (step (from_ bob 3000000001) o s1) = ABatch [Err EUnauthorized] /\
  map (fun c => read (t0 + 3000000001) c demo2) [COwner 1; CSpendAll (acct alice) (acct carol)] =
    [ROwner (Some (acct alice)); RSpend (Some (Some (t0 + 9000000000)))] /\
  map (fun c => read (t0 + 3000000001) c s1) [COwner 1; CSpendAll (acct alice) (acct carol)] =
    [ROwner (Some (acct carol)); RSpend None] /\
  map (fun c => read (t0 + 3000000001) c s2) [COwner 1; CSpendAll (acct alice) (acct carol)] =
    [ROwner (Some (acct carol)); RSpend None].
Proof.
  split; [apply demo_reachable|]. split; [exact Logic.I|]. split; [apply NoDup_singleton|]. vm_compute. repeat split; reflexivity.
Qed.

(** The admin announces an upload, stores a chunk twice and finishes it twice. *)
Example C150_example_upload :
  let f := fun dt => from_ admin dt in
  let s1 := run [(f 1, OInitUpload "a" 10); (f 2, OReply 0 (RInitOk [7])); (f 3, OStoreChunk "a")] demo1 in
  let s2 := fst (step (f 4) (OReply 1 ROk) s1) in
  pend s1 !! 1 = Some (PStore admin "a" (t0 + 2) [7] "a") /\
  snd (step (f 4) (OReply 1 ROk) s1) = AOk /\
  snd (step (f 5) (OStoreChunk "a") s2) = APending /\ next_pend s2 = 2 /\
  let s3 := run [(f 5, OStoreChunk "a"); (f 6, OReply 2 ROk); (f 7, OFinalize "a")] s2 in
  pend s3 !! 3 = Some (PFinalize admin "a" (t0 + 2) [7] "a") /\
  snd (step (f 8) (OReply 3 ROk) s3) = AOk /\
  snd (step (f 9) (OFinalize "a") (fst (step (f 8) (OReply 3 ROk) s3))) = AErr EUploadAlreadyFinalized.
Proof. vm_compute. repeat split; reflexivity. Qed.
