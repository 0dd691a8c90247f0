(** Agreement of the two canisters: C65. *)
From Verif Require Import Base ModelPrincipal ModelState ModelIcrc7 ModelIcrc37 ModelManagement ModelLifecycle ModelQueries ModelStep
  ModelStorage ModelConsent ModelIndex SpecIndex ProofsItems ProofsManage ProofsMicro Spec ProofsCore ProofsOwner ProofsTime ProofsLog ProofsRate
  ProofsApprovals ProofsQueries ProofsPrincipal ProofsIndex Scenario PropertiesLedger PropertiesReads PropertiesIndex.
Local Open Scope N_scope.

(** ** How the log's library writes a transaction into a block *)

(** The default subaccount (or none). *)
Definition plain (a : account) : Prop :=
  eff_sub a = default_sub /\ (length (acc_owner a) <= 29)%nat /\ Forall (fun b => b < 256) (acc_owner a).
Fixpoint has_dot (s : string) : bool :=
  match s with EmptyString => false | String c r => if Ascii.eqb c (Ascii.ascii_of_N 46) then true else has_dot r end.

(** Textual form of an account in the ICRC-1 standard: the principal alone for the default subaccount; otherwise a text with
    a dot before the subaccount. *)
Definition account_text (a : account) (x : string) : Prop :=
  if bool_decide (eff_sub a = default_sub) then x = principal_text (acc_owner a) else has_dot x = true.

(** Field [k] of a block holds account [a], if there is one. *)
Definition holds_account (m : value) (k : string) (a : option account) : Prop :=
  match a with
  | None => field m k = None
  | Some a => exists x, field m k = Some (VText x) /\ account_text a x
  end.

(** Block [v] is the transaction [t] (the encoding is in the crate bity_ic_icrc3, outside the repository). *)
Definition encodes (t : tx) (v : value) : Prop :=
  field v "btype" = Some (VText (tx_btype t)) /\
  exists m, field v "tx" = Some m /\ field m "tid" = (VNat <$> tx_tid t) /\
    holds_account m "from" (tx_from t) /\ holds_account m "to" (tx_to t) /\ holds_account m "spender" (tx_spender t).

(** ** Shape of the logged transactions *)
Definition present {A} (o : option A) : bool := match o with Some _ => true | None => false end.
Definition shape (t : tx) : bool :=
  let ty := tx_btype t in
  bool_decide (ty ∈ supported_blocks) &&
  implb (present (tx_tid t)) (bool_decide (ty ∈ token_types) || bool_decide (ty = "37xfer"%string)) &&
  implb (present (tx_from t)) (bool_decide ("from"%string ∈ roles ty)) &&
  implb (present (tx_to t)) (bool_decide ("to"%string ∈ roles ty)) &&
  implb (present (tx_spender t)) (bool_decide ("spender"%string ∈ roles ty) || bool_decide (ty = "37approve_coll"%string)).

Lemma shape_micro e o s s' : Forall shape (blocks s) -> micro e o s s' -> Forall shape (blocks s').
Proof.
  intros L H.
  assert (snoc : forall i t, shape t -> Forall shape (map snd (log s ++ [(i, t)]))).
  { intros i t Ht. rewrite blocks_snoc. apply Forall_app. split; [exact L|]. constructor; [exact Ht|constructor]. }
  assert (mints : forall idxs now id l, Forall shape (map snd (log s ++ zip idxs (mint_txs now id l)))).
  { intros. rewrite map_app, snd_zip_le. apply Forall_app. split; [exact L|]. apply Forall_take.
    revert id. induction l; intros id; [constructor|]. constructor; [|auto]. vm_compute. exact I. }
  destruct H; open_quiet; try (destruct p, r); try exact L; unfold blocks; simpl; try apply mints; apply snoc;
    unfold shape; cbn [tx_btype tx_tid tx_from tx_to tx_spender present transfer_tx approve_tx revoke_tx transfer_from_tx update_meta_tx burn_tx];
    try (match goal with |- context [present ?x] => destruct (present x) end); vm_compute; exact I.
Qed.

Lemma shape_reachable s t : reachable s -> t ∈ blocks s -> shape t.
Proof.
  intros (caller & u & a & s0 & h & Hi & ->). revert t. apply Forall_forall.
  apply (run_inv (fun s => Forall shape (blocks s))).
  - intros. eapply shape_micro; eauto.
  - destruct (init_inv _ _ _ _ Hi) as (_ & _ & _ & _ & ->). constructor.
Qed.

Lemma digit_no_dot n : n < 32 -> Ascii.eqb (b32_digit n) (Ascii.ascii_of_N 46) = false.
Proof.
  intros H. apply negb_true_iff. revert n H. apply (all_small (fun n => negb (Ascii.eqb (b32_digit n) (Ascii.ascii_of_N 46))) 32).
  vm_compute. reflexivity.
Qed.
Lemma b32_no_dot : forall l, Forall (fun c => Ascii.eqb c (Ascii.ascii_of_N 46) = false) (b32_bits l).
Proof.
  fix IH 1. intros [|a [|b [|c [|d [|e r]]]]]; simpl; try (constructor; fail); constructor; auto; apply digit_no_dot;
    repeat match goal with b : bool |- _ => destruct b end; reflexivity.
Qed.
Lemma principal_no_dot p : has_dot (principal_text p) = false.
Proof.
  unfold principal_text. generalize (b32_no_dot (concat (map byte_bits (be32 (crc32 p) ++ p)))).
  generalize (b32_bits (concat (map byte_bits (be32 (crc32 p) ++ p)))). generalize 5%nat. clear.
  intros n l H. revert n. induction H as [|c l Hc H IH]; intros n; [reflexivity|]. destruct n; cbn [dashed has_dot].
  - change (Ascii.eqb (Ascii.ascii_of_N 45) (Ascii.ascii_of_N 46)) with false. rewrite Hc. apply IH.
  - rewrite Hc. apply IH.
Qed.

(** ** C65 *)

(** Accounts as the platform's types allow them. *)
Definition typed_account (a : account) : Prop := (length (acc_owner a) <= 29)%nat /\ Forall (fun b => b < 256) (acc_owner a).
Definition named_in (t : tx) (a : account) : Prop := tx_from t = Some a \/ tx_to t = Some a \/ tx_spender t = Some a.
Definition typed_tx (t : tx) : Prop :=
  (forall n, tx_tid t = Some n -> n < two64) /\ forall a, named_in t a -> typed_account a.

(** What a transaction should be listed under. *)
Definition concerns (t : tx) (k : ikey) : Prop :=
  match k with
  | KType ty => ty = tx_btype t
  | KToken n => tx_tid t = Some n
  | KAccount k => exists a, named_in t a /\ akey a = k
  end.

(** The index's exceptions: token ids of 37xfer blocks, spenders of 37approve_coll blocks, and subaccounts. *)
Definition left_out (t : tx) (k : ikey) : Prop :=
  match k with
  | KType _ => False
  | KToken _ => tx_btype t = "37xfer"%string
  | KAccount k => snd k <> default_sub \/
      (tx_btype t = "37approve_coll"%string /\ forall a, akey a = k -> tx_from t <> Some a)
  end.

Lemma lower_supported ty : ty ∈ supported_blocks -> lowercase ty = ty.
Proof. intros H. repeat (apply elem_of_cons in H; destruct H as [->|H]; [vm_compute; reflexivity|]). apply elem_of_nil in H. contradiction. Qed.

Lemma has_type_encodes t v ty : encodes t v -> tx_btype t ∈ supported_blocks -> has_type v ty <-> ty = tx_btype t.
Proof.
  intros [E _] S. unfold has_type. rewrite E. split.
  - intros (x & [= <-] & <- & _). apply lower_supported, S.
  - intros ->. exists (tx_btype t). split; [reflexivity|]. split; [apply lower_supported, S|].
    clear E. repeat (apply elem_of_cons in S; destruct S as [->|S]; [set_solver|]). apply elem_of_nil in S. contradiction.
Qed.

Definition role (t : tx) (f : string) : option account :=
  if bool_decide (f = "from"%string) then tx_from t else if bool_decide (f = "to"%string) then tx_to t
  else if bool_decide (f = "spender"%string) then tx_spender t else None.

Lemma roles_three ty f : f ∈ roles ty -> f ∈ ["from"; "to"; "spender"]%string.
Proof. unfold roles. repeat case_bool_decide; set_solver. Qed.

Lemma encodes_role t v f : encodes t v -> f ∈ ["from"; "to"; "spender"]%string ->
  exists m, field v "tx" = Some m /\ holds_account m f (role t f).
Proof.
  intros (_ & m & Em & _ & Hf & Ht & Hs) Hin. exists m. split; [exact Em|].
  repeat (apply elem_of_cons in Hin; destruct Hin as [->|Hin]; [assumption|]). apply elem_of_nil in Hin. contradiction.
Qed.

Lemma names_role t v f k : encodes t v -> typed_tx t -> f ∈ ["from"; "to"; "spender"]%string ->
  names v f k <-> exists a, role t f = Some a /\ akey a = k /\ snd k = default_sub.
Proof.
  intros En [_ Ta] Hin. destruct (encodes_role t v f En Hin) as (m & Em & Hh). unfold names. rewrite Em.
  assert (Tr : forall a, role t f = Some a -> typed_account a).
  { intros a Ha. apply Ta. unfold role in Ha. unfold named_in. repeat case_bool_decide; auto; discriminate. }
  destruct (role t f) as [a|] eqn:Ea; simpl in Hh.
  - destruct Hh as (x & Ex & Hx). destruct (Tr a eq_refl) as [Tl Tb]. unfold account_text in Hx. split.
    + intros (t' & p & [= <-] & E2 & Hp & Hb & ->). rewrite Ex in E2. assert (x = principal_text p) as -> by congruence.
      exists a. split; [reflexivity|]. case_bool_decide as D.
      * apply principal_text_inj in Hx; [|assumption..]. subst p. split; [|reflexivity]. unfold akey. rewrite D. reflexivity.
      * rewrite principal_no_dot in Hx. discriminate.
    + intros (a' & [= <-] & <- & D). exists m, (acc_owner a). unfold akey in *. simpl in D.
      rewrite bool_decide_eq_true_2 in Hx by exact D. subst x. splits; auto. rewrite D. reflexivity.
  - split; [intros (t' & p & [= <-] & E2 & _); congruence|intros (a & [=] & _)].
Qed.

(** A block's keys are exactly those its transaction concerns, minus the exceptions. *)
Theorem C65_keys_partial s t v k : reachable s -> t ∈ blocks s -> encodes t v -> typed_tx t ->
  about v k <-> concerns t k /\ ~ left_out t k.
Proof.
  intros R I En Ty. pose proof (shape_reachable s t R I) as Sh. unfold shape in Sh.
  apply Is_true_eq_true in Sh. rewrite !andb_true_iff, !implb_true_iff, !orb_true_iff, !bool_decide_eq_true in Sh.
  destruct Sh as ((((S1 & S2) & S3) & S4) & S5).
  destruct k as [k|ty|n]; simpl.
  - split.
    + intros (ty & f & Ht & Hf & Hn). apply (has_type_encodes t v ty En S1) in Ht. subst ty.
      apply (names_role t v f k En Ty (roles_three _ _ Hf)) in Hn. destruct Hn as (a & Ea & Ka & Kd). split.
      * exists a. split; [|exact Ka]. unfold role in Ea. unfold named_in. repeat case_bool_decide; auto; discriminate.
      * intros [Hd|[Et Hno]]; [contradiction|]. apply (Hno a Ka). rewrite Et in Hf. vm_compute in Hf.
        assert (f = "from"%string) as -> by set_solver. exact Ea.
    + intros [(a & Ha & Ka) Hl]. destruct (decide (snd k = default_sub)) as [D|D]; [|tauto].
      assert (G : exists f, f ∈ roles (tx_btype t) /\ exists a, role t f = Some a /\ akey a = k).
      { destruct (decide (tx_btype t = "37approve_coll"%string)) as [Et|Et].
        - destruct (tx_from t) as [b|] eqn:Ef.
          + destruct (decide (akey b = k)) as [Kb|Kb].
            * exists "from"%string. rewrite Et. split; [set_solver|]. exists b. split; [exact Ef|exact Kb].
            * exfalso. apply Hl. right. split; [exact Et|]. intros a' Ka' [= ->]. contradiction.
          + exfalso. apply Hl. right. split; [exact Et|]. intros a' _. discriminate.
        - destruct Ha as [Ha|[Ha|Ha]]; rewrite Ha in *; simpl in *.
          + exists "from"%string. split; [apply S3; reflexivity|]. exists a. auto.
          + exists "to"%string. split; [apply S4; reflexivity|]. exists a. auto.
          + exists "spender"%string. destruct (S5 eq_refl) as [H|H]; [|contradiction]. split; [exact H|]. exists a. auto. }
      destruct G as (f & Hf & b & Eb & Kb). exists (tx_btype t), f. split; [apply (has_type_encodes t v _ En S1); reflexivity|].
      split; [exact Hf|]. apply (names_role t v f k En Ty (roles_three _ _ Hf)). exists b. auto.
  - rewrite (has_type_encodes t v ty En S1). tauto.
  - pose proof En as En'. destruct En' as [E1 (m & Em & Et & _)]. split.
    + intros (ty & m' & Ht & Hty & Em' & Hn). rewrite Em in Em'. injection Em' as <-. rewrite Et in Hn.
      apply (has_type_encodes t v ty En S1) in Ht. subst ty.
      destruct (tx_tid t) as [n'|]; [|discriminate]. injection Hn as ->. split; [reflexivity|]. intros X. rewrite X in Hty. set_solver.
    + intros [Hn Hx]. exists (tx_btype t), m. rewrite Et, Hn in *. simpl in S2. destruct (S2 eq_refl) as [H|H]; [|contradiction].
      splits; auto. apply (has_type_encodes t v _ En S1). reflexivity.
Qed.
Print Assumptions C65_keys_partial.

(** Every block can be taken in by the index. *)
Theorem C65_understood s t v : reachable s -> t ∈ blocks s -> encodes t v -> typed_tx t -> understood v.
Proof.
  intros R I En Ty. split.
  - exists (tx_btype t). apply (C65_keys_partial s t v (KType (tx_btype t)) R I En Ty). split; [reflexivity|intros []].
  - intros n H. apply (C65_keys_partial s t v (KToken n) R I En Ty) in H. destruct H as [H _]. apply (proj1 Ty), H.
Qed.
Print Assumptions C65_understood.

(** End to end: the ledger holds the transactions logged by an NFT canister, and the index has run on it. *)
Definition ledger_of (s : state) (L : chain) : Prop :=
  forall i t, blocks s !! i = Some t -> encodes t (L (N.of_nat i)) /\ typed_tx t.

Theorem C65_end_to_end_partial s L h H k i : reachable s -> ledger_of s L ->
  fair L 0 h istart -> no_overlap h istart -> last_height 0 h <= H -> H = nlen (blocks s) ->
  i ∈ listed (irun h istart) k <->
    i < istatus (irun h istart) /\ exists t, blocks s !! N.to_nat i = Some t /\ concerns t k /\ ~ left_out t k.
Proof.
  intros R Led F No Hh ->.
  destruct (upd_run L h 0 istart (istart_ok L) (istart_upd L 0) F No) as [U _]. pose proof (us_last _ _ _ U) as Hl.
  rewrite (proj1 (C55_index_exact L h F No) k i). unfold istatus in *. split.
  - intros [Hi Ha]. split; [exact Hi|]. unfold nlen in *.
    destruct (lookup_lt_is_Some_2 (blocks s) (N.to_nat i) ltac:(lia)) as [t Et]. exists t. split; [exact Et|].
    destruct (Led _ _ Et) as [En Ty]. rewrite N2Nat.id in En. apply (C65_keys_partial s t (L i) k R); auto; eapply elem_of_list_lookup_2; eauto.
  - intros [Hi (t & Et & Hc)]. split; [exact Hi|]. destruct (Led _ _ Et) as [En Ty]. rewrite N2Nat.id in En.
    apply (C65_keys_partial s t (L i) k R); auto; eapply elem_of_list_lookup_2; eauto.
Qed.
Print Assumptions C65_end_to_end_partial.

(** A possible encoder. *)
Definition acc_text (a : account) : string :=
  if bool_decide (eff_sub a = default_sub) then principal_text (acc_owner a) else (principal_text (acc_owner a) ++ "-aaaaaaa.1")%string.
Definition opt_field (k : string) (o : option value) : list (string * value) := match o with Some v => [(k, v)] | None => [] end.
Definition block_of (t : tx) : value :=
  VMap [("btype"%string, VText (tx_btype t));
        ("tx"%string, VMap (opt_field "tid" (VNat <$> tx_tid t) ++ opt_field "from" (VText ∘ acc_text <$> tx_from t) ++
                            opt_field "to" (VText ∘ acc_text <$> tx_to t) ++ opt_field "spender" (VText ∘ acc_text <$> tx_spender t)))].

Lemma has_dot_app a b : has_dot b = true -> has_dot (a ++ b) = true.
Proof. intros H. induction a as [|c a IH]; [exact H|]. change (String c a ++ b)%string with (String c (a ++ b)). simpl. destruct (Ascii.eqb c _); auto. Qed.

Lemma acc_text_ok a : account_text a (acc_text a).
Proof. unfold account_text, acc_text. case_bool_decide; [reflexivity|]. apply has_dot_app. vm_compute. reflexivity. Qed.

Lemma block_of_encodes t : encodes t (block_of t).
Proof.
  split; [reflexivity|]. eexists. split; [reflexivity|]. 
  destruct t as [bt tm tid fr to sp ex me mm cr]; cbn [tx_tid tx_from tx_to tx_spender].
  destruct tid, fr, to, sp; cbn [opt_field fmap option_fmap option_map app compose];
    (split; [reflexivity|]; splits; cbn [holds_account]; first [reflexivity | eexists; split; [reflexivity|apply acc_text_ok]]).
Qed.

Definition demo_x : history :=
  demo2_h ++ [(from_ bob 3000000000, OTransferFrom [tfrom alice carol 1]);
              (from_ alice 5000000000, OTransfer [mkTransferArg (mkAcc bob (Some (repeat 7 32))) 2 None None None])].

Definition account_ok (o : option account) : bool :=
  match o with None => true | Some a => (length (acc_owner a) <=? 29)%nat && forallb (fun b => b <? 256) (acc_owner a) end.
Definition tx_ok (t : tx) : bool :=
  match tx_tid t with None => true | Some n => n <? two64 end &&
  account_ok (tx_from t) && account_ok (tx_to t) && account_ok (tx_spender t).
Lemma account_ok_typed o a : account_ok o = true -> o = Some a -> typed_account a.
Proof.
  intros H ->. simpl in H. apply andb_true_iff in H. destruct H as [H1 H2]. split; [apply Nat.leb_le, H1|].
  rewrite forallb_forall in H2. apply Forall_forall. intros b Hb. apply N.ltb_lt, H2, elem_of_list_In, Hb.
Qed.
Lemma tx_ok_typed t : tx_ok t = true -> typed_tx t.
Proof.
  unfold tx_ok. rewrite !andb_true_iff. intros (((H1 & H2) & H3) & H4). split.
  - intros n E. rewrite E in H1. apply N.ltb_lt, H1.
  - intros a [E|[E|E]]; (eapply account_ok_typed; [|exact E]; assumption).
Qed.
Lemma demo_x_typed t : t ∈ blocks (run demo_x demo0) -> typed_tx t.
Proof.
  intros I. apply tx_ok_typed. assert (X : forallb tx_ok (blocks (run demo_x demo0)) = true) by (vm_compute; reflexivity).
  rewrite forallb_forall in X. apply X, elem_of_list_In, I.
Qed.

Lemma refuted_witness i k t : blocks (run demo_x demo0) !! i = Some t -> concerns t k -> left_out t k ->
  exists s t v, reachable s /\ t ∈ blocks s /\ encodes t v /\ typed_tx t /\ concerns t k /\ ~ about v k.
Proof.
  intros Hi Hc Hl. assert (I : t ∈ blocks (run demo_x demo0)) by (eapply elem_of_list_lookup_2; exact Hi).
  exists (run demo_x demo0), t, (block_of t).
  pose proof (demo_reachable demo_x) as R. pose proof (demo_x_typed t I) as Ty. pose proof (block_of_encodes t) as En.
  splits; auto. intros A. apply (C65_keys_partial _ t _ k R I En Ty) in A. tauto.
Qed.

(** The block of a transfer by an approved spender is not listed under its token. *)
Theorem C65_transfer_from_refuted : exists s t v n,
  reachable s /\ t ∈ blocks s /\ encodes t v /\ typed_tx t /\ tx_tid t = Some n /\ ~ about v (KToken n).
Proof.
  destruct (blocks (run demo_x demo0) !! 5%nat) as [t|] eqn:E; [|vm_compute in E; discriminate].
  assert (E1 : tx_tid <$> blocks (run demo_x demo0) !! 5%nat = Some (Some 1)) by (vm_compute; reflexivity).
  assert (E2 : tx_btype <$> blocks (run demo_x demo0) !! 5%nat = Some "37xfer"%string) by (vm_compute; reflexivity).
  rewrite E in E1, E2. injection E1 as E1. injection E2 as E2.
  destruct (refuted_witness 5 (KToken 1) t E E1 E2) as (s & t' & v & X). exists s, t', v, 1. exact X.
Qed.
Print Assumptions C65_transfer_from_refuted.

(** The spender of a collection approval is not listed. *)
Theorem C65_collection_spender_refuted : exists s t v a,
  reachable s /\ t ∈ blocks s /\ encodes t v /\ typed_tx t /\ named_in t a /\ plain a /\ ~ about v (KAccount (akey a)).
Proof.
  destruct (blocks (run demo_x demo0) !! 4%nat) as [t|] eqn:E; [|vm_compute in E; discriminate].
  assert (E1 : tx_spender <$> blocks (run demo_x demo0) !! 4%nat = Some (Some (acct carol))) by (vm_compute; reflexivity).
  assert (E2 : tx_btype <$> blocks (run demo_x demo0) !! 4%nat = Some "37approve_coll"%string) by (vm_compute; reflexivity).
  assert (E3 : tx_from <$> blocks (run demo_x demo0) !! 4%nat = Some (Some (acct alice))) by (vm_compute; reflexivity).
  rewrite E in E1, E2, E3. injection E1 as E1. injection E2 as E2. injection E3 as E3.
  assert (I : t ∈ blocks (run demo_x demo0)) by (eapply elem_of_list_lookup_2; exact E).
  pose proof (demo_reachable demo_x) as R. pose proof (demo_x_typed t I) as Ty. pose proof (block_of_encodes t) as En.
  exists (run demo_x demo0), t, (block_of t), (acct carol). splits; auto.
  - right. right. exact E1.
  - split; [reflexivity|]. split; [simpl; lia|]. constructor; [reflexivity|constructor].
  - intros A. apply (C65_keys_partial _ t _ _ R I En Ty) in A. destruct A as [_ A]. apply A. right. split; [exact E2|].
    intros a Ka Hf. rewrite E3 in Hf. injection Hf as <-. vm_compute in Ka. discriminate.
Qed.
Print Assumptions C65_collection_spender_refuted.

(** An account with a subaccount is not listed. *)
Theorem C65_subaccount_refuted : exists s t v a,
  reachable s /\ t ∈ blocks s /\ encodes t v /\ typed_tx t /\ named_in t a /\ ~ about v (KAccount (akey a)).
Proof.
  destruct (blocks (run demo_x demo0) !! 6%nat) as [t|] eqn:E; [|vm_compute in E; discriminate].
  assert (E1 : tx_to <$> blocks (run demo_x demo0) !! 6%nat = Some (Some (mkAcc bob (Some (repeat 7 32))))) by (vm_compute; reflexivity).
  rewrite E in E1. injection E1 as E1.
  assert (I : t ∈ blocks (run demo_x demo0)) by (eapply elem_of_list_lookup_2; exact E).
  pose proof (demo_reachable demo_x) as R. pose proof (demo_x_typed t I) as Ty. pose proof (block_of_encodes t) as En.
  exists (run demo_x demo0), t, (block_of t), (mkAcc bob (Some (repeat 7 32))). splits; auto.
  - right. left. exact E1.
  - intros A. apply (C65_keys_partial _ t _ _ R I En Ty) in A. destruct A as [_ A]. apply A. left. vm_compute. discriminate.
Qed.
Print Assumptions C65_subaccount_refuted.

Example C65_example :
  reachable (run demo_x demo0) /\ Forall (fun t => encodes t (block_of t) /\ typed_tx t) (blocks (run demo_x demo0)) /\
  map tx_btype (blocks (run demo_x demo0)) = ["7mint"; "7mint"; "7mint"; "37approve"; "37approve_coll"; "37xfer"; "7xfer"]%string.
Proof.
  splits; [apply demo_reachable| |vm_compute; reflexivity]. rewrite Forall_forall. intros t I. split; [apply block_of_encodes|apply demo_x_typed, I].
Qed.
