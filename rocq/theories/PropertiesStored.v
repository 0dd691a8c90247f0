(** What the ledger keeps in stable memory reads back as it was, after any history: C133. *)
From Verif Require Import Base ModelPrincipal ModelState ModelIcrc7 ModelIcrc37 ModelManagement ModelLifecycle ModelQueries ModelStep
  ModelStorage ModelIndex ModelCodec ProofsItems ProofsManage ProofsMicro Spec ProofsCore ProofsOwner ProofsLog ProofsRate
  ProofsApprovals ProofsQueries ProofsMeta ProofsCodec Scenario PropertiesReads PropertiesCodec PropertiesText.
Local Open Scope N_scope.

(** ** Messages as the interface types them *)

(** A blob of bytes whose length fits 64 bits. *)
Definition typed_blob (b : bytes) : Prop := nlen b < two64 /\ octets b.
(** [ApprovalInfo]. *)
Definition typed_info (i : approval_info) : Prop :=
  wf_account (ai_spender i) /\ (forall b, ai_from_sub i = Some b -> nlen b = 32) /\
  (forall x, ai_expires i = Some x -> x < two64) /\ (forall b, ai_memo i = Some b -> typed_blob b).
(** Metadata: the texts are UTF-8, the keys of maps ascend, lengths fit 64 bits. *)
Definition typed_meta (kvs : list (string * value)) : Prop := Forall (fun kv => wf_text (fst kv) /\ wf_value (snd kv)) kvs.
(** A message: the caller is a principal, the time is a number of nanoseconds in 64 bits; other arguments do not reach the
    stable maps. *)
Definition typed_msg (x : env * op) : Prop :=
  nlen (e_caller (fst x)) <= 29 /\ e_now (fst x) < two64 /\
  match snd x with
  | OApproveTokens l => Forall (fun a => typed_info (ap_info a)) l
  | OApproveCollection l => Forall typed_info l
  | OMint l => Forall (fun r => typed_meta (mr_meta r)) l
  | OUpdateMeta _ kvs => typed_meta kvs
  | _ => True
  end.

Lemma run_typed (T : env * op -> Prop) (P : state -> Prop) h s :
  (forall e o s s', T (e, o) -> P s -> micro e o s s' -> P s') -> Forall T h -> P s -> P (run h s).
Proof.
  intros H F. revert s. induction F as [|[e o] h Ht F IH]; intros s HP; simpl; [auto|].
  apply IH. apply step_inv; eauto.
Qed.

(** ** Metadata *)

(** A metadata map that can be stored under its key. *)
Definition stored_meta (M : gmap N (gmap string value)) : Prop :=
  forall t m, M !! t = Some m -> t < two64 /\
    forall k v, m !! k = Some v -> wf_text k /\ wf_value v /\ encodable v = true.

Lemma stored_insert t k v M M' : wf_text k -> wf_value v -> stored_meta M -> insert_data t k v M = Some M' -> stored_meta M'.
Proof.
  intros Wk Wv H. unfold insert_data. destruct (encodable v) eqn:E; [|discriminate]. cbn [andb].
  destruct (N.ltb_spec t two64) as [L|]; [|discriminate]. intros X.
  injection X as <-.
  intros t' m Hm. apply lookup_insert_Some in Hm. destruct Hm as [[<- <-]|[N Hm]]; [|exact (H t' m Hm)]. split; [exact L|].
  intros k' v' Hk. apply lookup_insert_Some in Hk. destruct Hk as [[<- <-]|[N' Hk]]; [auto|].
  destruct (M !! t) as [m0|] eqn:E0; simpl in Hk; [|rewrite lookup_empty in Hk; discriminate]. eapply H; eauto.
Qed.

Lemma stored_adds t kvs : forall M M', typed_meta kvs -> stored_meta M -> add_metadata t kvs M = Some M' -> stored_meta M'.
Proof.
  induction kvs as [|[k v] kvs IH]; intros M M' F H; cbn [add_metadata]; [intros X; injection X as <-; exact H|].
  inversion F as [|? ? [Wk Wv] F']; subst. cbn [fst snd] in *.
  destruct (insert_data t k v M) as [M1|] eqn:E; [|discriminate]. intros X. eapply IH; [exact F'| |exact X].
  eapply stored_insert; [| | |exact E]; eauto.
Qed.

Lemma stored_mints l : forall id M M', Forall (fun r => typed_meta (mr_meta r)) l -> stored_meta M ->
  mint_metadata id l M = Some M' -> stored_meta M'.
Proof.
  induction l as [|r l IH]; intros id M M' F H; cbn [mint_metadata]; [intros X; injection X as <-; exact H|].
  inversion F as [|? ? T F']; subst.
  destruct (add_metadata id (mr_meta r) M) as [M1|] eqn:E; [|discriminate]. intros X. eapply IH; [exact F'| |exact X].
  eapply stored_adds; [exact T|exact H|exact E].
Qed.

Lemma typed_collect kvs : typed_meta kvs -> typed_meta (sorted_pairs (collect_map kvs)).
Proof.
  intros F. unfold typed_meta. rewrite sorted_pairs_perm. rewrite Forall_forall. intros [k v] I. apply elem_of_map_to_list in I.
  unfold collect_map in I. apply elem_of_list_to_map_2 in I.
  unfold typed_meta in F. rewrite Forall_forall in F. apply F. rewrite rev_alt in I. apply (elem_of_reverse (k, v) kvs). exact I.
Qed.

Lemma stored_micro e o s s' : typed_msg (e, o) -> stored_meta (metas s) -> micro e o s s' -> stored_meta (metas s').
Proof.
  intros (_ & _ & T) H M. micro_cases M; cbn [snd] in T; try exact H.
  - eapply stored_mints; [exact T|exact H|eassumption].
  - eapply stored_mints; [exact T|exact H|eassumption].
  - eapply stored_adds; [apply typed_collect; exact T| |eassumption].
    intros t0 m0 X. apply lookup_delete_Some in X. destruct X as [_ X]. exact (H t0 m0 X).
  - eapply stored_adds; [apply typed_collect; exact T| |eassumption].
    intros t0 m0 X. apply lookup_delete_Some in X. destruct X as [_ X]. exact (H t0 m0 X).
Qed.

Lemma sorted_lookup m k v : (k, v) ∈ sorted_pairs m <-> m !! k = Some v.
Proof. rewrite sorted_pairs_perm. apply elem_of_map_to_list. Qed.

Lemma stored_encodes M t m : stored_meta M -> M !! t = Some m -> exists b, enc_metadata m = Some b.
Proof.
  intros H E. unfold enc_metadata. destruct (all_some _) as [bs|] eqn:A; [eauto|]. exfalso.
  apply all_some_none in A. rewrite Exists_exists in A. destruct A as ([k v] & I & X). apply sorted_lookup in I. cbn [fst snd] in X.
  destruct (H t m E) as [_ G]. destruct (G k v I) as (_ & _ & En). destruct (enc_value v) eqn:Ev; [discriminate|].
  apply enc_value_encodable in Ev. congruence.
Qed.

(** The metadata of every token, as the ledger sees it, is what its key and its bytes in stable memory decode to.  (A map of
    2^64 entries would not fit into the memory of a canister.) *)
Theorem C133_metadata caller url_ok a s0 h t m :
  init caller url_ok a = Some s0 -> Forall typed_msg h ->
  metas (run h s0) !! t = Some m -> N.of_nat (size m) < two64 ->
  exists kb b, enc_nat t = Some kb /\ enc_metadata m = Some b /\
    dec_nat kb = Some (t, []) /\ dec_metadata (S (length b)) b = Some (m, []).
Proof.
  intros Hi T Hm Sz.
  assert (St : stored_meta (metas (run h s0))).
  { apply (run_typed typed_msg (fun s => stored_meta (metas s))); [intros; eapply stored_micro; eauto|exact T|].
    apply init_inv in Hi. destruct Hi as (_ & _ & _ & _ & ->). intros t' m' X. simpl in X. rewrite lookup_empty in X. discriminate. }
  destruct (stored_encodes _ _ _ St Hm) as [b Eb]. destruct (St t m Hm) as [L G].
  assert (En : enc_nat t = Some (enc_u64 t)). { unfold enc_nat. replace (t <? two64) with true by (symmetry; apply N.ltb_lt; exact L). reflexivity. }
  exists (enc_u64 t), b. splits; auto.
  - rewrite <- (app_nil_r (enc_u64 t)). apply C52_token_id. exact En.
  - assert (W : wf_metadata m). { split; [exact Sz|]. intros k v X. destruct (G k v X) as (A & B & _). auto. }
    pose proof (C52_metadata m b [] W Eb) as D. rewrite app_nil_r in D. exact D.
Qed.
Print Assumptions C133_metadata.

(** ** Approvals *)

(** All entries of the map can be stored. *)
Definition stored_map (m : gmap acckey (account * approval)) : Prop :=
  forall k ka ap, m !! k = Some (ka, ap) -> wf_account ka /\ wf_approval ap.
Definition stored_appr (s : state) : Prop :=
  (forall t m, tok_appr s !! t = Some m -> stored_map m) /\ (forall k m, col_appr s !! k = Some m -> stored_map m).

Lemma stored_appmap_insert sp ap m : wf_account sp -> wf_approval ap -> stored_map m -> stored_map (appmap_insert sp ap m).
Proof.
  intros Ws Wa H. unfold appmap_insert. destruct (m !! akey sp) as [[k0 a0]|] eqn:E; intros k ka x Hx;
    apply lookup_insert_Some in Hx; destruct Hx as [[_ X]|[_ X]]; try (eapply H; exact X).
  - assert (k0 = ka /\ ap = x) as [<- <-] by (split; congruence). split; [|exact Wa]. eapply H; exact E.
  - assert (sp = ka /\ ap = x) as [<- <-] by (split; congruence). auto.
Qed.
Lemma stored_map_sub m m' : m' ⊆ m -> stored_map m -> stored_map m'.
Proof. intros S H k ka ap X. eapply H. eapply lookup_weaken; eauto. Qed.
Lemma stored_revoke sp m : stored_map m -> stored_map (revoke_from sp m).
Proof.
  intros H k ka ap. rewrite revoke_from_lookup. destruct sp; [|discriminate]. destruct (decide _); [discriminate|]. apply H.
Qed.
Lemma stored_default {K} `{Countable K} (M : gmap K (gmap acckey (account * approval))) k :
  (forall k m, M !! k = Some m -> stored_map m) -> stored_map (default ∅ (M !! k)).
Proof. intros X. destruct (M !! k) eqn:E; simpl; [eauto|]. intros k' ka ap Y. rewrite lookup_empty in Y. discriminate. Qed.
Lemma stored_new e i : nlen (e_caller e) <= 29 -> e_now e < two64 -> typed_info i ->
  wf_approval (new_approval i (mkAcc (e_caller e) (ai_from_sub i)) (e_now e)).
Proof.
  intros C N (S & F & X & M). unfold new_approval, wf_approval. cbn. splits; auto. split; [exact C|exact F].
Qed.

Lemma stored_appr_micro e o s s' : typed_msg (e, o) -> stored_appr s -> micro e o s s' -> stored_appr s'.
Proof.
  intros (C & N & T) [Ht Hc] M. cbn [fst snd] in *.
  micro_cases M; try (split; assumption).
  - split; [|exact Hc]. intros t m X. simpl in X. apply lookup_insert_Some in X. destruct X as [[_ <-]|[_ X]]; [|eauto].
    rewrite Forall_forall in T. pose proof (T _ H) as Ti. apply stored_appmap_insert; [apply Ti| |apply stored_default; exact Ht].
    apply stored_new; assumption.
  - split; [exact Ht|]. intros t m X. simpl in X. apply lookup_insert_Some in X. destruct X as [[_ <-]|[_ X]]; [|eauto].
    rewrite Forall_forall in T. pose proof (T _ H) as Ti. apply stored_appmap_insert; [apply Ti| |apply stored_default; exact Hc].
    apply stored_new; assumption.
  - split; [|exact Hc]. intros t m0 X. simpl in X. apply lookup_insert_Some in X. destruct X as [[_ <-]|[_ X]]; [|eauto].
    apply stored_revoke. eauto.
  - split; [exact Ht|]. intros t m0 X. simpl in X. apply lookup_insert_Some in X. destruct X as [[_ <-]|[_ X]]; [|eauto].
    apply stored_revoke. eauto.
  - split; intros t m X; simpl in X; apply drop_expired_sub in X; destruct X as (m0 & X & Sub); eapply stored_map_sub; eauto.
  - split; intros t m X; simpl in X; apply lookup_delete_Some in X; destruct X as [_ X]; apply drop_expired_sub in X;
      destruct X as (m0 & X & Sub); eapply stored_map_sub; eauto.
Qed.

(** Approvals are only ever stored for token ids that fit. *)
Definition small_keys (s : state) : Prop := forall t m, tok_appr s !! t = Some m -> t < two64.

Lemma small_approve e s a s' r : small_keys s -> approve_token e s a = Some (s', r) -> small_keys s'.
Proof.
  intros H E. destruct (approve_token_inv _ _ _ _ _ E) as [[Q _]|(s2 & i & ow & -> & Q & _ & _ & _ & _ & _ & ->)].
  - destruct Q as (w & n & ->). exact H.
  - assert (L : ap_tid a < two64).
    { unfold approve_token in E. destruct (guard_sliding_window _ _ _) as [s1 p]. destruct (negb p); [discriminate|].
      destruct (verify_approval_timing _ _ _); try discriminate. destruct (owner_of _ _); [|discriminate].
      destruct (negb _); [discriminate|]. destruct (acc_eqb _ _); [discriminate|].
      match type of E with (if ?c then _ else _) = _ => destruct c; [discriminate|] end.
      destruct (add_transaction _ _ _) as [s3 ans]. destruct ans; try discriminate.
      destruct (N.ltb_spec (ap_tid a) two64); [assumption|discriminate]. }
    intros t m X. simpl in X. apply lookup_insert_Some in X. destruct X as [[<- _]|[_ X]]; [exact L|eauto].
Qed.

Lemma small_step e o s : small_keys s -> small_keys (fst (step e o s)).
Proof.
  intros H. destruct o as [l|l| | | | | | | | | | | | | | | | ];
    try (apply step_inv; [|exact H]; clear; intros s s' H M; inversion M; subst; clear M; open_quiet;
         try match goal with |- context [continue _ ?p ?r _] => destruct p, r end; try exact H; intros t m0 X; simpl in X;
         repeat match goal with
         | X : <[_ := _]> _ !! _ = Some _ |- _ => apply lookup_insert_Some in X; destruct X as [[<- _]|[_ X]]
         | X : delete _ _ !! _ = Some _ |- _ => apply lookup_delete_Some in X; destruct X as [_ X]
         | X : drop_expired _ _ _ _ !! _ = Some _ |- _ => apply drop_expired_sub in X; destruct X as (? & X & _)
         end; eauto; fail).
  simpl. unfold icrc37_approve_tokens. destruct (run_items _ _ _) as [[s' bs]|] eqn:R; [|exact H]. simpl.
  apply (run_items_ind _ small_keys (fun _ _ => True)) in R; [tauto|auto|auto| |exact H].
  intros s1 a1 s2 b1 H1 E1. split; [eapply small_approve; eassumption|exact Logic.I].
Qed.

Lemma small_run h s : small_keys s -> small_keys (run h s).
Proof. revert s. induction h as [|[e o] h IH]; intros s H; simpl; [exact H|]. apply IH, small_step, H. Qed.

Lemma usize_limit_lt o : usize_limit o < two64.
Proof.
  unfold usize_limit, usize_try, default_max_appr. destruct (N.ltb_spec (default 10 o) two32); simpl; unfold two32, two64 in *; lia.
Qed.

Lemma run_stored_appr caller url_ok a s0 h :
  init caller url_ok a = Some s0 -> Forall typed_msg h -> stored_appr (run h s0).
Proof.
  intros Hi T. apply (run_typed typed_msg stored_appr); [intros; eapply stored_appr_micro; eauto|exact T|].
  apply init_inv in Hi. destruct Hi as (_ & _ & _ & _ & ->). split; intros t' m' X; simpl in X; rewrite lookup_empty in X; discriminate.
Qed.

(** The approvals of every token are what its key and its bytes in stable memory decode to, whatever order the hash map was
    enumerated in when they were written. *)
Theorem C133_token_approvals caller url_ok a s0 h t m l :
  init caller url_ok a = Some s0 -> Forall typed_msg h ->
  tok_appr (run h s0) !! t = Some m -> l ≡ₚ map snd (map_to_list m) ->
  (exists kb, enc_nat t = Some kb /\ dec_nat kb = Some (t, [])) /\ dec_approvals (enc_approvals l) = Some (m, []).
Proof.
  intros Hi T Hm P. destruct (run_stored_appr _ _ _ _ h Hi T) as [St _]. destruct (run_appr_bound _ _ _ _ h Hi) as (_ & B & _).
  assert (R : reachable (run h s0)) by (exists caller, url_ok, a, s0, h; auto).
  split.
  - assert (L : t < two64).
    { eapply (small_run h s0); [|exact Hm]. apply init_inv in Hi. destruct Hi as (_ & _ & _ & _ & ->). intros t' m' X. simpl in X.
      rewrite lookup_empty in X. discriminate. }
    assert (En : enc_nat t = Some (enc_u64 t)). { unfold enc_nat. replace (t <? two64) with true by (symmetry; apply N.ltb_lt; exact L). reflexivity. }
    exists (enc_u64 t). split; [exact En|]. rewrite <- (app_nil_r (enc_u64 t)). apply C52_token_id. exact En.
  - rewrite <- (app_nil_r (enc_approvals l)). eapply C52_token_approvals; [exact R|exact Hm| |exact P].
    split; [|exact (St _ _ Hm)]. eapply N.le_lt_trans; [exact (B _ _ Hm)|apply usize_limit_lt].
Qed.
Print Assumptions C133_token_approvals.

Theorem C133_collection_approvals caller url_ok a s0 h k m l :
  init caller url_ok a = Some s0 -> Forall typed_msg h ->
  col_appr (run h s0) !! k = Some m -> l ≡ₚ map snd (map_to_list m) ->
  dec_approvals (enc_approvals l) = Some (m, []).
Proof.
  intros Hi T Hm P. destruct (run_stored_appr _ _ _ _ h Hi T) as [_ St]. destruct (run_appr_bound _ _ _ _ h Hi) as (_ & _ & B).
  assert (R : reachable (run h s0)) by (exists caller, url_ok, a, s0, h; auto).
  rewrite <- (app_nil_r (enc_approvals l)). eapply C52_collection_approvals; [exact R|exact Hm| |exact P].
  split; [|exact (St _ _ Hm)]. eapply N.le_lt_trans; [exact (B _ _ Hm)|apply usize_limit_lt].
Qed.
Print Assumptions C133_collection_approvals.

(** Metadata with accented keys and nested values, approvals with a memo and with an expiry. *)
Definition stored_h : history :=
  demo2_h ++ [(from_ admin 3000000000, OUpdateMeta 1 [("é"%string, nested); ("z"%string, VText "ü")]);
              (from_ alice 4000000000, OApproveTokens [mkApproveArg 1 (mkInfo (acct carol) (Some default_sub) None (Some [0; 255]) (t0 + 4000000000))])].
Example C133_example :
  init admin (fun _ => true) demo_args = Some demo0 /\ Forall typed_msg stored_h /\
  option_map size (metas (run stored_h demo0) !! 1) = Some 2%nat /\
  option_map size (tok_appr (run stored_h demo0) !! 1) = Some 2%nat /\
  option_map size (col_appr (run stored_h demo0) !! akey (acct alice)) = Some 1%nat /\
  (enc_metadata <$> metas (run stored_h demo0) !! 1) =
    Some (Some ([162; 97; 122; 130; 1; 98; 195; 188; 98; 195; 169] ++ default [] (enc_value nested))).
Proof.
  assert (S32 : forall b, Some default_sub = Some b -> nlen b = 32) by (intros b E; injection E as <-; vm_compute; reflexivity).
  assert (Acc : forall p, nlen p <= 29 -> wf_account (acct p)) by (intros p L; split; [exact L|discriminate]).
  assert (Txt : forall s, (nlen (string_bytes s) <? two64) && utf8_valid (string_bytes s) = true -> wf_text s).
  { intros s E. apply andb_prop in E. destruct E as [E1 E2]. split; [apply N.ltb_lt; exact E1|exact E2]. }
  split; [apply demo0_init|]. split.
  - unfold stored_h, demo2_h, demo1_h. cbn [app].
    repeat (apply Forall_cons; split); [..|apply Forall_nil; exact Logic.I]; (split; [vm_compute; discriminate|split; [vm_compute; reflexivity|]]); cbn [snd mint3].
    + repeat (apply Forall_cons; split); try (apply Forall_nil; exact Logic.I).
      split; [apply Txt; vm_compute; reflexivity|exact Logic.I].
    + apply Forall_cons; split; [|apply Forall_nil; exact Logic.I]. split; [apply Acc; vm_compute; discriminate|]. splits; discriminate.
    + apply Forall_cons; split; [|apply Forall_nil; exact Logic.I]. split; [apply Acc; vm_compute; discriminate|]. splits; try discriminate.
      intros x E. injection E as <-. vm_compute. reflexivity.
    + apply Forall_cons; split; [|apply Forall_cons; split; [|apply Forall_nil; exact Logic.I]]; (split; [apply Txt; vm_compute; reflexivity|]).
      * exact nested_wf.
      * apply Txt. vm_compute. reflexivity.
    + apply Forall_cons; split; [|apply Forall_nil; exact Logic.I]. split; [apply Acc; vm_compute; discriminate|]. split; [exact S32|]. split; [discriminate|].
      intros b E. injection E as <-. split; [vm_compute; reflexivity|repeat constructor].
  - splits; vm_compute; reflexivity.
Qed.
