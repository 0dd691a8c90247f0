(** Stored bytes: C52, C53, C54. *)
From Verif Require Import Base ModelPrincipal ModelState ModelIcrc7 ModelIcrc37 ModelManagement ModelLifecycle ModelQueries ModelStep
  ModelStorage ModelIndex ModelCodec ProofsItems ProofsManage ProofsMicro Spec ProofsCore ProofsOwner ProofsLog ProofsRate
  ProofsApprovals ProofsQueries ProofsMeta ProofsCodec Scenario.

(** Keys of the stored token approvals. *)
Lemma tok_keyed_micro e o s s' :
  (forall t m, tok_appr s !! t = Some m -> forall k ka ap, m !! k = Some (ka, ap) -> akey ka = k /\ akey (a_spender ap) = k) ->
  micro e o s s' ->
  (forall t m, tok_appr s' !! t = Some m -> forall k ka ap, m !! k = Some (ka, ap) -> akey ka = k /\ akey (a_spender ap) = k).
Proof.
  intros C H. micro_cases H; try exact C.
  - intros t m. match goal with |- <[?x := _]> _ !! _ = _ -> _ => destruct (decide (x = t)) as [E|Hne] end.
    + rewrite E, lookup_insert. intros [= <-] k ka ap Hk. eapply appmap_insert_keys; [exact Hk|reflexivity|].
      intros k1 ka1 ap1 X. destruct (tok_appr s !! t) as [m0|] eqn:E0; simpl in X; [|rewrite lookup_empty in X; discriminate].
      eapply C; eauto.
    + rewrite lookup_insert_ne by exact Hne. apply C.
  - intros t m0. match goal with |- <[?x := _]> _ !! _ = _ -> _ => destruct (decide (x = t)) as [E|Hne] end.
    + rewrite E, lookup_insert. intros [= <-] k ka ap. rewrite revoke_from_lookup. intros Hk.
      rewrite E in *. destruct (rv_spender a); [|discriminate]. destruct (decide _); [discriminate|]. eapply C; eauto.
    + rewrite lookup_insert_ne by exact Hne. apply C.
  - intros t m X k ka ap Hk. apply drop_expired_sub in X. destruct X as (m0 & X & Sub).
    eapply C; [exact X|]. eapply lookup_weaken; eauto.
  - intros t m X k ka ap Hk. apply lookup_delete_Some in X. destruct X as [_ X]. apply drop_expired_sub in X.
    destruct X as (m0 & X & Sub). eapply C; [exact X|]. eapply lookup_weaken; eauto.
Qed.

Lemma tok_keyed s t m : reachable s -> tok_appr s !! t = Some m -> keyed m.
Proof.
  intros (c & u & a & s0 & h & Hi & ->) Hm k ka ap Hk.
  assert (G : forall t m, tok_appr (run h s0) !! t = Some m -> forall k ka ap, m !! k = Some (ka, ap) -> akey ka = k /\ akey (a_spender ap) = k).
  { apply (run_inv (fun s => forall t m, tok_appr s !! t = Some m -> forall k ka ap, m !! k = Some (ka, ap) -> akey ka = k /\ akey (a_spender ap) = k)).
    - intros. eapply tok_keyed_micro; eauto.
    - apply init_inv in Hi. destruct Hi as (_ & _ & _ & _ & ->). intros t' m' X. simpl in X. rewrite lookup_empty in X. discriminate. }
  eapply G; eauto.
Qed.

(** ** C52: round trips *)

(** A stored value decodes to itself, whatever bytes follow it. *)
Theorem C52_value v b rest : wf_value v -> enc_value v = Some b -> value_from_bytes (b ++ rest) = Some v.
Proof.
  intros W E. unfold value_from_bytes. rewrite (read_value v b _ W E); [reflexivity|]. rewrite app_length. lia.
Qed.
Print Assumptions C52_value.

Theorem C52_token_id n b rest : enc_nat n = Some b -> dec_nat (b ++ rest) = Some (n, rest).
Proof.
  unfold enc_nat. destruct (n <? two64) eqn:E; [|discriminate]. intros X. assert (b = enc_u64 n) as -> by congruence.
  apply read_u64. apply N.ltb_lt in E. exact E.
Qed.
Print Assumptions C52_token_id.

Theorem C52_account a rest : wf_account a -> dec_account (enc_account a ++ rest) = Some (a, rest).
Proof. intros W. apply read_account. exact W. Qed.
Print Assumptions C52_account.

Theorem C52_metadata m b rest :
  wf_metadata m -> enc_metadata m = Some b -> dec_metadata (S (length (b ++ rest))) (b ++ rest) = Some (m, rest).
Proof. intros W E. apply read_metadata; [exact W|exact E|]. rewrite app_length. lia. Qed.
Print Assumptions C52_metadata.

(** The approvals of a token or of a collection, written in the order in which the hash map happens to be enumerated, are
    read back as the same map: spenders, key objects, expiries, memos. *)
Theorem C52_token_approvals s t m l rest :
  reachable s -> tok_appr s !! t = Some m -> wf_approvals m -> l ≡ₚ map snd (map_to_list m) ->
  dec_approvals (enc_approvals l ++ rest) = Some (m, rest).
Proof. intros R H W P. apply read_approvals; [eapply tok_keyed; eauto|exact W|exact P]. Qed.
Print Assumptions C52_token_approvals.

Theorem C52_collection_approvals s k m l rest :
  reachable s -> col_appr s !! k = Some m -> wf_approvals m -> l ≡ₚ map snd (map_to_list m) ->
  dec_approvals (enc_approvals l ++ rest) = Some (m, rest).
Proof.
  intros R H W P. apply read_approvals; [|exact W|exact P]. intros k' ka ap X. eapply (reachable_col_keys s R); eauto.
Qed.
Print Assumptions C52_collection_approvals.

Theorem C52_index_key k b rest : wf_key k -> enc_key k = Some b -> dec_key (b ++ rest) = Some (k, rest).
Proof. intros W E. apply read_key; assumption. Qed.
Print Assumptions C52_index_key.

Theorem C52_index_entry l rest :
  nlen l < two64 -> (forall x, x ∈ l -> x < two64) -> dec_ids (enc_ids l ++ rest) = Some (l, rest).
Proof. intros L F. apply read_ids; [exact L|]. rewrite Forall_forall. exact F. Qed.
Print Assumptions C52_index_entry.

Theorem C52_cache_entry ts v b rest :
  ts < two64 -> wf_value v -> enc_entry (ts, v) = Some b -> entry_from_bytes (b ++ rest) = Some (ts, v).
Proof.
  intros T W. unfold enc_entry. cbn [fst snd]. destruct (enc_value v) as [c|] eqn:E; [|discriminate]. intros X.
  assert (b = le 8 ts ++ c) as -> by congruence. unfold entry_from_bytes.
  replace (nlen _ <? 8) with false
    by (symmetry; apply N.ltb_ge; unfold nlen; rewrite !app_length, le_length; lia).
  rewrite <- app_assoc.
  replace (skipn 8 _) with (c ++ rest) by (symmetry; apply (drop_app_alt _ _ 8); rewrite le_length; reflexivity).
  replace (firstn 8 _) with (le 8 ts) by (symmetry; apply (take_app_alt _ _ 8); rewrite le_length; reflexivity).
  rewrite (C52_value v c rest W E), le_num_le; [reflexivity|exact T].
Qed.
Print Assumptions C52_cache_entry.

Definition nested : value :=
  VMap [("a"%string, VArray [VNat 18446744073709551615; VInt (-9223372036854775808); VBlob [0; 255]]); ("b"%string, VMap [("x"%string, VText "y")])].
Lemma nested_wf : wf_value nested.
Proof. cbn. unfold nlen, two64. cbn. repeat split; try lia; repeat constructor; discriminate. Qed.
Example C52_example :
  wf_value nested /\
  enc_value nested = Some [130; 5; 162; 97; 97; 130; 4; 131; 130; 2; 27; 255; 255; 255; 255; 255; 255; 255; 255;
                           130; 3; 59; 127; 255; 255; 255; 255; 255; 255; 255; 130; 0; 66; 0; 255;
                           97; 98; 130; 5; 161; 97; 120; 130; 1; 97; 121] /\
  enc_account (mkAcc [1; 2] None) = [130; 66; 1; 2; 246] /\
  wf_account (mkAcc [1; 2] (Some default_sub)) /\
  (exists m, tok_appr demo2 !! 1 = Some m /\ wf_approvals m /\ m <> ∅).
Proof.
  split; [exact nested_wf|]. split; [vm_compute; reflexivity|]. split; [vm_compute; reflexivity|].
  split. { split; [vm_compute; discriminate|]. intros b [= <-]. reflexivity. }
  exists {[akey (acct bob) := (acct bob, mkAppr (acct bob) (acct alice) None (t0 + 1000000000) None)]}.
  split; [vm_compute; reflexivity|]. split.
  - split; [vm_compute; reflexivity|]. intros k ka ap X. apply lookup_singleton_Some in X. destruct X as [_ [= <- <-]].
    unfold wf_approval, wf_account. cbn. splits; try lia; try discriminate; vm_compute; reflexivity.
  - intros X. apply (f_equal (fun m => m !! akey (acct bob))) in X. rewrite lookup_singleton, lookup_empty in X. discriminate.
Qed.

(** ** C53: keys *)

(** Encodings of different keys differ, and none is a proper prefix of another. *)
Theorem C53_token_ids n n' b c :
  enc_nat n = Some b -> enc_nat n' = Some (b ++ c) -> n = n' /\ c = [].
Proof.
  intros E E'. apply (reads_inj dec_nat b c); intros rest; apply C52_token_id; assumption.
Qed.
Print Assumptions C53_token_ids.

Theorem C53_accounts a a' c :
  wf_account a -> wf_account a' -> enc_account a' = enc_account a ++ c -> a = a' /\ c = [].
Proof.
  intros W W' E. apply (reads_inj dec_account (enc_account a) c); [apply read_account; exact W|].
  rewrite <- E. apply read_account. exact W'.
Qed.
Print Assumptions C53_accounts.

Theorem C53_index_keys k k' b c :
  wf_key k -> wf_key k' -> enc_key k = Some b -> enc_key k' = Some (b ++ c) -> k = k' /\ c = [].
Proof. intros W W' E E'. apply (reads_inj dec_key b c); apply read_key; assumption. Qed.
Print Assumptions C53_index_keys.

(** The same for the stored values. *)
Theorem C53_values v v' b c :
  wf_value v -> wf_value v' -> enc_value v = Some b -> enc_value v' = Some (b ++ c) -> v = v' /\ c = [].
Proof.
  intros W W' E E'. apply (reads_inj (dec_value (length (b ++ c))) b c); apply read_value; try assumption; [|reflexivity].
  rewrite app_length. lia.
Qed.
Print Assumptions C53_values.

Example C53_example :
  enc_key (RAccount (mkAcc [1; 2] None)) = Some [130; 0; 129; 130; 66; 1; 2; 246] /\
  enc_key (RType "7mint") = Some [130; 1; 129; 101; 55; 109; 105; 110; 116] /\
  enc_key (RToken 300) = Some [130; 2; 129; 25; 1; 44] /\ enc_nat 23 = Some [23] /\ enc_nat 24 = Some [24; 24] /\
  enc_nat 18446744073709551616 = None.
Proof. vm_compute. splits; reflexivity. Qed.

(** ** C54: what cannot be stored *)

(** [w] occurs somewhere in [v]. *)
Inductive inside (w : value) : value -> Prop :=
| in_self : inside w w
| in_array l v : v ∈ l -> inside w v -> inside w (VArray l)
| in_map l k v : (k, v) ∈ l -> inside w v -> inside w (VMap l).

(** A number that does not fit 64 bits. *)
Definition too_big (w : value) : Prop :=
  match w with
  | VNat n => (2 ^ 64 <= n)%N
  | VInt z => (z < - 2 ^ 63 \/ 2 ^ 63 <= z)%Z
  | _ => False
  end.

Theorem C54_encode_fails v : enc_value v = None <-> exists w, inside w v /\ too_big w.
Proof.
  rewrite enc_value_encodable.
  assert (T : encodable v = true <-> forall w, inside w v -> ~ too_big w).
  2: { destruct (encodable v) eqn:E.
       - split; [discriminate|]. intros (w & I & B). exfalso. eapply (proj1 T); eauto.
       - split; [|reflexivity]. intros _. clear T. revert E.
         induction v as [b|s|n|z|l IH|l IH] using value_ind'; cbn [encodable]; try discriminate.
         + intros E. apply N.ltb_ge in E. exists (VNat n). split; [constructor|]. exact E.
         + intros E. exists (VInt z). split; [constructor|]. cbn [too_big]. apply andb_false_iff in E.
           destruct E as [E|E]; apply Z.leb_gt in E; lia.
         + intros E. induction l as [|x l IHl]; [discriminate|]. inversion IH; subst. cbn [forallb] in E. apply andb_false_iff in E. destruct E as [E|E].
           * destruct (H1 E) as (w & I & B). exists w. split; [|exact B]. eapply in_array; [left|exact I].
           * destruct (IHl H2 E) as (w & I & B). inversion I; subst; [destruct B|]. exists w. split; [|exact B].
             eapply in_array; [right; eassumption|eassumption].
         + intros E. induction l as [|[k x] l IHl]; [discriminate|]. inversion IH; subst. cbn [forallb snd] in E. apply andb_false_iff in E. destruct E as [E|E].
           * destruct (H1 E) as (w & I & B). exists w. split; [|exact B]. eapply in_map; [left|exact I].
           * destruct (IHl H2 E) as (w & I & B). inversion I; subst; [destruct B|]. exists w. split; [|exact B].
             eapply in_map; [right; eassumption|eassumption]. }
  induction v as [b|s|n|z|l IH|l IH] using value_ind'; cbn [encodable].
  - split; [|reflexivity]. intros _ w I. inversion I; subst. cbn. tauto.
  - split; [|reflexivity]. intros _ w I. inversion I; subst. cbn. tauto.
  - split.
    + intros E w I. apply N.ltb_lt in E. inversion I; subst. cbn. unfold two64 in E. lia.
    + intros A. specialize (A _ (in_self _)). cbn in A. apply N.ltb_lt. unfold two64. lia.
  - split.
    + intros E w I. apply andb_prop in E. destruct E as [E1 E2]. apply Z.leb_le in E1, E2. inversion I; subst. cbn [too_big]. lia.
    + intros A. specialize (A _ (in_self _)). cbn [too_big] in A. apply andb_true_intro. split; apply Z.leb_le; lia.
  - rewrite forallb_forall. rewrite Forall_forall in IH. split.
    + intros E w I. inversion I; subst; [cbn; tauto|]. apply (IH v); [assumption|apply E, elem_of_list_In; assumption|assumption].
    + intros A x Hx. apply elem_of_list_In in Hx. apply IH; [exact Hx|]. intros w I. apply A. eapply in_array; eauto.
  - rewrite forallb_forall. rewrite Forall_forall in IH. split.
    + intros E w I. inversion I; subst; [cbn; tauto|]. apply (IH (k, v)); [assumption|apply (E (k, v)), elem_of_list_In; assumption|assumption].
    + intros A [k x] Hx. apply elem_of_list_In in Hx. apply IH; [exact Hx|]. intros w I. apply A. eapply in_map; eauto.
Qed.
Print Assumptions C54_encode_fails.

(** Writing a value into a token's metadata traps exactly if the token id or some number in the value does not fit; the
    ledger model's test agrees with the encoder. *)
Theorem C54_insert_traps tid k v m :
  insert_data tid k v m = None <-> 2 ^ 64 <= tid \/ exists w, inside w v /\ too_big w.
Proof.
  rewrite <- C54_encode_fails, enc_value_encodable. unfold insert_data. change (2 ^ 64) with two64.
  destruct (encodable v); cbn [andb].
  - destruct (N.ltb_spec tid two64); split; try discriminate; try tauto. intros [X|X]; [lia|discriminate].
  - split; [auto|reflexivity].
Qed.
Print Assumptions C54_insert_traps.

Example C54_example :
  enc_value (VArray [VNat 1; VMap [("k"%string, VNat (2 ^ 64))]]) = None /\
  inside (VNat (2 ^ 64)) (VArray [VNat 1; VMap [("k"%string, VNat (2 ^ 64))]]) /\ too_big (VNat (2 ^ 64)) /\
  enc_value (VArray [VNat 1; VMap [("k"%string, VNat (2 ^ 64 - 1))]]) <> None /\
  enc_value (VInt (2 ^ 63)) = None /\ enc_value (VInt (- 2 ^ 63)) <> None.
Proof.
  split; [vm_compute; reflexivity|]. split.
  { eapply in_array; [right; left|]. eapply in_map; [left|]. constructor. }
  split; [vm_compute; discriminate|]. splits; vm_compute; try discriminate; reflexivity.
Qed.
