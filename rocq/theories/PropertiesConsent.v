(** What a consent message tells, and which calls have one: C139, C140. *)
From Verif Require Import Base ModelPrincipal ModelState ModelIcrc7 ModelIcrc37 ModelManagement ModelLifecycle
  ModelQueries ModelStep ModelConsent ProofsPrincipal ProofsItems ProofsManage ProofsMicro Spec ProofsCore Scenario PropertiesReads.
Local Open Scope N_scope.

(** The call a request for consent is about: the method with its decoded argument. *)
Definition carries (d : decoders) (r : consent_request) (o : op) : Prop :=
  match o with
  | OTransfer l => cr_method r = "icrc7_transfer" /\ d_transfer d (cr_arg r) = Some l
  | OApproveTokens l => cr_method r = "icrc37_approve_tokens" /\ d_approve d (cr_arg r) = Some l
  | OApproveCollection l => cr_method r = "icrc37_approve_collection" /\ d_approve_coll d (cr_arg r) = Some l
  | ORevokeTokens l => cr_method r = "icrc37_revoke_token_approvals" /\ d_revoke d (cr_arg r) = Some l
  | ORevokeCollection l => cr_method r = "icrc37_revoke_collection_approvals" /\ d_revoke_coll d (cr_arg r) = Some l
  | OTransferFrom l => cr_method r = "icrc37_transfer_from" /\ d_transfer_from d (cr_arg r) = Some l
  | OUpdateCollection _ => cr_method r = "update_collection_metadata"
  | OMint _ => cr_method r = "mint"
  | OUpdateMeta _ _ => cr_method r = "update_nft_metadata"
  | OBurn _ => cr_method r = "burn_nft"
  | OGrant _ _ => cr_method r = "grant_permission"
  | ORevokePerm _ _ => cr_method r = "revoke_permission"
  | OInitUpload _ _ => cr_method r = "init_upload"
  | OStoreChunk _ => cr_method r = "store_chunk"
  | OFinalize _ => cr_method r = "finalize_upload"
  | OCancel _ => cr_method r = "cancel_upload"
  | OReply _ _ | OUpgrade => False
  end%string.

(** ** C139: what the message tells *)

(** What can be read off a message besides the method. *)
Inductive shown :=
| ShCount (n : N)
| ShSpender (p : principal)
| ShNothing.

(** For a call: the number of items, with no difference between none and one; of collection approvals the principal of the
    first spender; of collection revocations nothing. *)
Definition told (o : op) : shown :=
  match o with
  | OTransfer l => ShCount (N.max 1 (nlen l))
  | OApproveTokens l => ShCount (N.max 1 (nlen l))
  | ORevokeTokens l => ShCount (N.max 1 (nlen l))
  | OTransferFrom l => ShCount (N.max 1 (nlen l))
  | OApproveCollection (a :: _) => ShSpender (acc_owner (ai_spender a))
  | _ => ShNothing
  end.

(** The principals of a collection approval are made of bytes. *)
Definition of_bytes (o : op) : Prop :=
  match o with
  | OApproveCollection l => Forall (fun a => Forall (fun b => b < 256) (acc_owner (ai_spender a))) l
  | _ => True
  end.

Lemma batch_text_eq p q one n1 n2 :
  (forall c x, p +:+ String c x = one -> 58 <= Ascii.N_of_ascii c) ->
  batch_text p q one n1 = batch_text p q one n2 <-> N.max 1 n1 = N.max 1 n2.
Proof.
  intros O. assert (D : forall n : N, p +:+ pretty n +:+ q <> one).
  { intros n E. destruct (pretty_digit n) as (c & x & E' & Hc). rewrite E' in E. apply (O c (x +:+ q)) in E. lia. }
  unfold batch_text. destruct (N.ltb_spec 1 n1), (N.ltb_spec 1 n2); split; intros E; try lia.
  - apply append_inj_l in E. apply append_inj in E; [|reflexivity]. destruct E as [E _]. apply (inj pretty) in E. lia.
  - f_equal. f_equal. f_equal. lia.
  - destruct (D _ E).
  - symmetry in E. destruct (D _ E).
  - reflexivity.
Qed.

(** The six calls that have a message. *)
Definition consented (o : op) : Prop :=
  match o with
  | OTransfer _ | OApproveTokens _ | ORevokeTokens _ | ORevokeCollection _ | OTransferFrom _ => True
  | OApproveCollection l => l <> []
  | _ => False
  end.

Lemma consent_iff d r o :
  carries d r o ->
  consented o <-> exists m, consent_message d r = COk m (cr_lang r) (cr_offset r).
Proof.
  destruct r as [me arg lang off]. unfold carries, consent_message, consented. cbn [cr_method cr_arg cr_lang cr_offset].
  destruct o; intros C; try contradiction; try subst me; try (destruct C as (-> & C));
    repeat (rewrite bool_decide_eq_true_2 by reflexivity || rewrite bool_decide_eq_false_2 by discriminate);
    unfold transfer_consent, approve_consent, approve_coll_consent, revoke_consent, revoke_coll_consent, transfer_from_consent, consent_info;
    cbn [cr_method cr_arg cr_lang cr_offset]; try rewrite C; try (split; [intros _; eauto|auto]; fail);
    try (split; [contradiction|intros [m H]; discriminate]).
  destruct args as [|a l]; split; [congruence|intros [m H]; discriminate|eauto|congruence].
Qed.

(** Two calls that have messages get the same one exactly if they are of the same method and agree in what is [told]: nothing
    else of the arguments can be read off, neither token nor recipient. *)
Theorem C139_message_partial d r1 r2 o1 o2 m1 m2 :
  carries d r1 o1 -> carries d r2 o2 -> of_bytes o1 -> of_bytes o2 ->
  consent_message d r1 = COk m1 (cr_lang r1) (cr_offset r1) ->
  consent_message d r2 = COk m2 (cr_lang r2) (cr_offset r2) ->
  m1 = m2 <-> cr_method r1 = cr_method r2 /\ told o1 = told o2.
Proof.
  intros C1 C2 B1 B2 H1 H2.
  assert (S : m1 = m2 -> cr_method r1 = cr_method r2).
  { intros ->. eapply C70_message_tells_method; eauto. }
  assert (X : cr_method r1 = cr_method r2 -> m1 = m2 <-> told o1 = told o2); [|split; [intros E; split; [auto|apply X; auto]|tauto]].
  clear S. intros M. destruct r1 as [me arg1 lang1 off1], r2 as [me2 arg2 lang2 off2].
  cbn [cr_method cr_arg cr_lang cr_offset] in *. subst me2.
  pose proof (proj2 (consent_iff _ _ _ C1) (ex_intro _ _ H1)) as K1. pose proof (proj2 (consent_iff _ _ _ C2) (ex_intro _ _ H2)) as K2.
  unfold consent_message in H1, H2. unfold carries in C1, C2. cbn [cr_method cr_arg cr_lang cr_offset] in *.
  destruct o1; cbn in K1; try contradiction; destruct C1 as [-> C1];
  destruct o2; cbn in K2; try contradiction; destruct C2 as [E2 C2]; try discriminate E2; clear E2;
  repeat (rewrite bool_decide_eq_true_2 in H1 by reflexivity || rewrite bool_decide_eq_false_2 in H1 by discriminate);
  repeat (rewrite bool_decide_eq_true_2 in H2 by reflexivity || rewrite bool_decide_eq_false_2 in H2 by discriminate);
  unfold transfer_consent, approve_consent, approve_coll_consent, revoke_consent, revoke_coll_consent, transfer_from_consent, consent_info in H1, H2;
  cbn [cr_method cr_arg cr_lang cr_offset] in H1, H2; rewrite C1 in H1; rewrite C2 in H2; cbn [told].
  - injection H1 as <-. injection H2 as <-. rewrite batch_text_eq; [split; congruence|]. intros c x [= -> _]. vm_compute. discriminate.
  - injection H1 as <-. injection H2 as <-. rewrite batch_text_eq; [split; congruence|]. intros c x [= -> _]. vm_compute. discriminate.
  - destruct args as [|a l]; [congruence|]. destruct args0 as [|a0 l0]; [congruence|].
    cbn in B1, B2. apply Forall_cons in B1. apply Forall_cons in B2. destruct B1 as [B1 _], B2 as [B2 _].
    injection H1 as <-. injection H2 as <-.
    split; [|intros [= ->]; reflexivity]. intros E. apply append_inj_l in E.
    apply append_inj in E; [|reflexivity]. destruct E as [E _]. apply principal_text_inj in E; congruence.
  - injection H1 as <-. injection H2 as <-. rewrite batch_text_eq; [split; congruence|]. intros c x Z. discriminate Z.
  - injection H1 as <-. injection H2 as <-. split; reflexivity.
  - injection H1 as <-. injection H2 as <-. rewrite batch_text_eq; [split; congruence|]. intros c x [= -> _]. vm_compute. discriminate.
Qed.
Print Assumptions C139_message_partial.

(** Arguments of two bytes: a token and a principal. *)
Definition pair_decoders : decoders :=
  mkDec (fun b => match b with [t; p] => Some [xfer [p] t] | _ => None end)
        (fun b => match b with [t; p] => Some [appr t [p] 1000000000 None] | _ => None end)
        (fun b => match b with [_; p] => Some [info [p] 1000000000 None] | _ => None end)
        (fun b => match b with [t; p] => Some [mkRevokeArg (Some (acct [p])) None t None None] | _ => None end)
        (fun b => match b with [_; p] => Some [mkRevokeCollArg (Some (acct [p])) None None None] | _ => None end)
        (fun b => match b with [t; p] => Some [tfrom alice [p] t] | _ => None end).

(** alice is shown the same text for giving token 1 to bob and for giving token 2 to carol. *)
Theorem C139_message_refuted :
  ~ (forall d r1 r2 o1 o2 m e s,
       reachable s -> carries d r1 o1 -> carries d r2 o2 ->
       consent_message d r1 = COk m (cr_lang r1) (cr_offset r1) ->
       consent_message d r2 = COk m (cr_lang r2) (cr_offset r2) ->
       owners (fst (step e o1 s)) = owners (fst (step e o2 s))).
Proof.
  intros H.
  specialize (H pair_decoders (mkConsent "icrc7_transfer" [1; 2] "en" None) (mkConsent "icrc7_transfer" [2; 3] "en" None)
                (OTransfer [xfer bob 1]) (OTransfer [xfer carol 2])
                "You are about to transfer an NFT. Method: icrc7_transfer"%string (from_ alice 1000000000) demo1
                (demo_reachable _) ltac:(vm_compute; split; reflexivity) ltac:(vm_compute; split; reflexivity) eq_refl eq_refl).
  apply (f_equal (fun m => m !! 1)) in H. vm_compute in H. discriminate H.
Qed.
Print Assumptions C139_message_refuted.

Example C139_example :
  let r1 := mkConsent "icrc37_approve_collection" [0; 2] "en" None in
  let r2 := mkConsent "icrc37_approve_collection" [0; 3] "en" None in
  let o1 := OApproveCollection [info bob 1000000000 None] in
  let o2 := OApproveCollection [info carol 1000000000 None] in
  carries pair_decoders r1 o1 /\ carries pair_decoders r2 o2 /\ of_bytes o1 /\ of_bytes o2 /\ told o1 <> told o2 /\
  (exists m1, consent_message pair_decoders r1 = COk m1 "en" None) /\ (exists m2, consent_message pair_decoders r2 = COk m2 "en" None).
Proof.
  cbv zeta. split; [vm_compute; auto|]. split; [vm_compute; auto|].
  split; [repeat constructor|]. split; [repeat constructor|]. split; [discriminate|].
  split; eexists; vm_compute; reflexivity.
Qed.

(** ** C140: which calls have a message *)

(** A token that leaves its owner, or a change of approvals. *)
Definition disposes (s s' : state) : Prop :=
  (exists t a, owners s !! t = Some a /\ owners s' !! t <> Some a) \/ tok_appr s' <> tok_appr s \/ col_appr s' <> col_appr s.

Definition keeps (s s' : state) : Prop :=
  (forall t x, tokens s !! t = Some x -> tokens s' !! t = Some x) /\ tok_appr s' = tok_appr s /\ col_appr s' = col_appr s.

Lemma keeps_micro e o s s' :
  wf s -> ~ consented o -> (forall t, o <> OBurn t) -> micro e o s s' -> keeps s s'.
Proof.
  intros W C B M. unfold keeps.
  destruct M; open_quiet; try (destruct (C Logic.I)); try (destruct (B _ eq_refl)); try (destruct p, r); try (split; [|split]; auto; fail).
  - exfalso. apply C. cbn. intros ->. match goal with H : _ ∈ [] |- _ => inversion H end.
  - split; [|auto]. cbn. intros t x T. rewrite mint_tokens_lookup. destruct (decide _) as [D|D]; [|exact T].
    pose proof (wf_lt s W t x T). lia.
Qed.

Lemma keeps_step e o s :
  wf s -> ~ consented o -> (forall t, o <> OBurn t) -> keeps s (fst (step e o s)).
Proof.
  intros W C B. apply (step_rel wf keeps e o s); [| | |exact W].
  - intros x. unfold keeps. auto.
  - intros x y z (A1 & A2 & A3) (B1 & B2 & B3). split; [auto|]. split; congruence.
  - intros x y Wx M. split; [eapply wf_micro; eauto|eapply keeps_micro; eauto].
Qed.

(** A call through which a token leaves its owner or approvals change has a consent message, unless it is a burn. *)
Theorem C140_has_message_partial d r e o s :
  reachable s -> carries d r o -> (forall t, o <> OBurn t) -> disposes s (fst (step e o s)) ->
  exists m, consent_message d r = COk m (cr_lang r) (cr_offset r).
Proof.
  intros R C B D. apply (consent_iff _ _ _ C).
  assert (X : {consented o} + {~ consented o}).
  { destruct o; cbn; try (left; exact Logic.I); try (right; tauto). destruct args; [right; congruence|left; congruence]. }
  destruct X as [X|X]; [exact X|]. exfalso. destruct (keeps_step e o s (reachable_wf s R) X B) as (K1 & K2 & K3).
  destruct D as [(t & a & D1 & D2)|[D|D]]; [|congruence..].
  apply D2. unfold owners in *. rewrite lookup_fmap in *. destruct (tokens s !! t) as [x|] eqn:T; [|discriminate].
  rewrite (K1 _ _ T). exact D1.
Qed.
Print Assumptions C140_has_message_partial.

(** No request about a burn, or about any call of the management interface, gets a message. *)
Theorem C140_no_message d r o :
  carries d r o -> ~ consented o -> forall m l z, consent_message d r <> COk m l z.
Proof.
  intros C N m l z H. apply N. apply (consent_iff _ _ _ C). exists m.
  assert (E : l = cr_lang r /\ z = cr_offset r); [|destruct E as [<- <-]; exact H].
  assert (NE : not_empty_collection d r).
  { intros X Z. destruct (consent_cases d r) as [(M & _)|[(M & _)|[(M & Q & Y)|[(M & _)|[(M & _)|[(M & _)|((x & Q) & _)]]]]]];
      try congruence. rewrite Q in H. unfold approve_coll_consent in H. rewrite Y in Z.
    destruct (d_approve_coll d (cr_arg r)) as [[|]|]; discriminate. }
  pose proof (C70_supported_partial d r NE) as K. rewrite H in K. tauto.
Qed.
Print Assumptions C140_no_message.

(** The owner of a token destroys it by [burn_nft], for which no message is to be had. *)
Theorem C140_has_message_refuted :
  ~ (forall d r e o s, reachable s -> carries d r o -> disposes s (fst (step e o s)) ->
       exists m, consent_message d r = COk m (cr_lang r) (cr_offset r)).
Proof.
  intros H. destruct (H pair_decoders (mkConsent "burn_nft" [1] "en" None) (from_ alice 1000000000) (OBurn 1) demo1
    (demo_reachable _) eq_refl) as [m E]; [|vm_compute in E; discriminate E].
  left. exists 1, (acct alice). split; [vm_compute; reflexivity|]. vm_compute. discriminate.
Qed.
Print Assumptions C140_has_message_refuted.

Example C140_example :
  let r := mkConsent "icrc37_transfer_from" [1; 3] "en" None in
  let o := OTransferFrom [tfrom alice carol 1] in
  reachable demo2 /\ carries pair_decoders r o /\ (forall t, o <> OBurn t) /\
  disposes demo2 (fst (step (from_ bob 3000000000) o demo2)) /\
  consent_message pair_decoders r =
    COk "You are about to transfer an NFT using approval. Method: icrc37_transfer_from" "en" None.
Proof.
  cbv zeta. split; [apply demo_reachable|]. split; [vm_compute; auto|]. split; [discriminate|].
  split; [|vm_compute; reflexivity]. left. exists 1, (acct alice). split; [vm_compute; reflexivity|]. vm_compute. discriminate.
Qed.
