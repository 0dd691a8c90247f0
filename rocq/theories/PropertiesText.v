(** Stored texts are UTF-8, and what is read from stored bytes can be written again: more of C52. *)
From Verif Require Import Base ModelPrincipal ModelState ModelIndex ModelCodec ProofsCodec PropertiesReads PropertiesCodec.
From Coq Require Import ZifyN.

(** ** Texts *)

(** A Unicode scalar value: what a Rust [char] is. *)
Definition scalar (c : N) : Prop := c < 55296 \/ 57344 <= c <= 1114111.

(** UTF-8 of one scalar value. *)
Definition utf8_char (c : N) : bytes :=
  if c <? 128 then [c]
  else if c <? 2048 then [192 + c / 64; 128 + c mod 64]
  else if c <? 65536 then [224 + c / 4096; 128 + c / 64 mod 64; 128 + c mod 64]
  else [240 + c / 262144; 128 + c / 4096 mod 64; 128 + c / 64 mod 64; 128 + c mod 64].

Local Ltac Zify.zify_post_hook ::= Z.div_mod_to_equations.

Local Ltac truth :=
  repeat match goal with
  | |- context[?a <? ?b] => first [replace (a <? b) with true by (symmetry; apply N.ltb_lt; lia)
                                  |replace (a <? b) with false by (symmetry; apply N.ltb_ge; lia)]
  | |- context[?a <=? ?b] => replace (a <=? b) with true by (symmetry; apply N.leb_le; lia)
  end; cbn [andb].

Lemma utf8_char_valid c b : scalar c -> utf8_valid (utf8_char c ++ b) = utf8_valid b.
Proof.
  intros S. unfold scalar in S. unfold utf8_char.
  destruct (N.ltb_spec c 128). { cbn [app utf8_valid]. truth. reflexivity. }
  destruct (N.ltb_spec c 2048). { cbn [app utf8_valid]. unfold utf8_tail. truth. reflexivity. }
  destruct (N.ltb_spec c 65536).
  - cbn [app utf8_valid]. unfold utf8_tail.
    destruct (N.eqb_spec (224 + c / 4096) 224); destruct (N.eqb_spec (224 + c / 4096) 237); truth; reflexivity.
  - cbn [app utf8_valid]. unfold utf8_tail.
    destruct (N.eqb_spec (240 + c / 262144) 240); destruct (N.eqb_spec (240 + c / 262144) 244); truth; reflexivity.
Qed.

Local Ltac facts :=
  repeat match goal with
  | H : (_ && _)%bool = true |- _ => apply andb_prop in H; destruct H
  | H : (_ <=? _) = true |- _ => apply N.leb_le in H
  | H : (_ <? _) = true |- _ => apply N.ltb_lt in H
  | H : (_ <? _) = false |- _ => apply N.ltb_ge in H
  | H : utf8_tail _ = true |- _ => unfold utf8_tail in H
  end.

Lemma cons_same (a b : N) l l' : a = b -> l = l' -> a :: l = b :: l'.
Proof. intros -> ->. reflexivity. Qed.
Local Ltac same := repeat first [reflexivity | apply cons_same; [lia|]].

(** The bytes that count as a text are exactly the encodings of lists of scalar values. *)
Theorem C52_utf8 b : utf8_valid b = true <-> exists cs, Forall scalar cs /\ b = concat (map utf8_char cs).
Proof.
  split.
  - remember (length b) as n eqn:L. assert (Le : (length b <= n)%nat) by lia. clear L. revert b Le.
    induction n as [|n IH]; intros [|x r] Le V; cbn [length] in Le; try lia; try (exists []; split; [constructor|reflexivity]).
    assert (More : forall c r', scalar c -> x :: r = utf8_char c ++ r' -> (length r' <= n)%nat -> utf8_valid r' = true ->
              exists cs, Forall scalar cs /\ x :: r = concat (map utf8_char cs)).
    { intros c r' S E L V'. destruct (IH r' L V') as (cs & F & ->). exists (c :: cs). split; [constructor; assumption|exact E]. }
    cbn [utf8_valid] in V.
    destruct (x <? 128) eqn:E1. { facts. apply (More x r); [left; lia| |lia|exact V]. unfold utf8_char. truth. reflexivity. }
    destruct (x <? 194) eqn:E2; [discriminate|]. destruct (x <? 224) eqn:E3.
    { destruct r as [|y r1]; [discriminate|]. facts. cbn [length] in Le.
      apply (More (64 * (x - 192) + (y - 128)) r1); [left; lia| |lia|assumption].
      unfold utf8_char. truth. cbn [app]. same. }
    destruct (x <? 240) eqn:E4.
    { destruct r as [|y [|z r2]]; try discriminate. facts. cbn [length] in Le.
      apply (More (4096 * (x - 224) + 64 * (y - 128) + (z - 128)) r2); [| |lia|assumption].
      - unfold scalar. destruct (N.eqb_spec x 224); destruct (N.eqb_spec x 237); facts; lia.
      - unfold utf8_char.
        destruct (N.eqb_spec x 224); destruct (N.eqb_spec x 237); facts; try (exfalso; lia); truth; cbn [app]; same. }
    destruct (x <? 245) eqn:E5; [|discriminate].
    destruct r as [|y [|z [|w r3]]]; try discriminate. facts. cbn [length] in Le.
    apply (More (262144 * (x - 240) + 4096 * (y - 128) + 64 * (z - 128) + (w - 128)) r3); [| |lia|assumption].
    + unfold scalar. destruct (N.eqb_spec x 240); destruct (N.eqb_spec x 244); facts; lia.
    + unfold utf8_char.
      destruct (N.eqb_spec x 240); destruct (N.eqb_spec x 244); facts; try (exfalso; lia); truth; cbn [app]; same.
  - intros (cs & F & ->). induction F as [|c cs S F IH]; [reflexivity|]. cbn [map concat]. rewrite utf8_char_valid; assumption.
Qed.
Print Assumptions C52_utf8.

(** ** What decoding can yield *)

(** Every answer of the parser on a list of bytes has the property, and the rest is a list of bytes. *)
Definition octets (b : bytes) : Prop := Forall (fun x => x < 256) b.
Definition yields {A} (p : parser A) (P : A -> Prop) : Prop :=
  forall b a r, octets b -> p b = Some (a, r) -> P a /\ octets r.

Lemma yields_bind {A B} (p : parser A) (f : A -> parser B) P Q :
  yields p P -> (forall a, P a -> yields (f a) Q) -> yields (bind p f) Q.
Proof.
  intros Hp Hf b c r O. unfold bind. destruct (p b) as [[a r1]|] eqn:E; [|discriminate]. intros X.
  destruct (Hp b a r1 O E) as [Pa O1]. eapply Hf; eauto.
Qed.
Lemma yields_ret {A} (a : A) (P : A -> Prop) : P a -> yields (ret a) P.
Proof. intros Pa b c r O. unfold ret. intros X. assert (a = c /\ b = r) as [<- <-] by (split; congruence). auto. Qed.
Lemma yields_fail {A} (P : A -> Prop) : yields (@fail A) P.
Proof. intros b c r _ X. discriminate. Qed.
Lemma yields_weaken {A} (p : parser A) (P Q : A -> Prop) : yields p P -> (forall a, P a -> Q a) -> yields p Q.
Proof. intros H W b a r O X. destruct (H b a r O X). auto. Qed.

Lemma yields_next : yields next (fun x => x < 256).
Proof. intros [|x b] a r O; [discriminate|]. cbn [next]. intros X. assert (x = a /\ b = r) as [<- <-] by (split; congruence). inversion O; auto. Qed.
Lemma yields_slice n : yields (slice n) (fun b => nlen b = n /\ octets b).
Proof.
  intros b a r O. unfold slice. destruct (N.leb_spec n (nlen b)) as [L|]; [|discriminate]. intros X.
  assert (firstn (N.to_nat n) b = a /\ skipn (N.to_nat n) b = r) as [<- <-] by (split; congruence).
  split; [split|].
  - unfold nlen in *. rewrite firstn_length. lia.
  - apply Forall_take. exact O.
  - apply Forall_drop. exact O.
Qed.

Lemma be_num_bound b : octets b -> be_num b < 256 ^ nlen b.
Proof.
  intros O. unfold be_num.
  assert (G : forall a, fold_left (fun a x => 256 * a + x) b a < (a + 1) * 256 ^ nlen b).
  { induction O as [|x b Hx O IH]; intros a; cbn [fold_left]; [cbn; lia|].
    specialize (IH (256 * a + x)). replace (nlen (x :: b)) with (N.succ (nlen b)) by (unfold nlen; cbn [length]; lia).
    rewrite N.pow_succ_r'. eapply N.lt_le_trans; [exact IH|].
    rewrite N.mul_assoc. apply N.mul_le_mono_r. lia. }
  specialize (G 0). lia.
Qed.

Lemma yields_head major : yields (dec_head major) (fun n => n < two64).
Proof.
  unfold dec_head. eapply yields_bind; [apply yields_next|]. intros x Hx.
  destruct (negb _); [apply yields_fail|]. cbn zeta.
  destruct (N.ltb_spec (x mod 32) 24) as [L|]; [apply yields_ret; unfold two64; lia|].
  assert (G : forall k, k <= 8 -> yields (bind (slice k) (fun b => ret (be_num b))) (fun n => n < two64)).
  { intros k Hk. eapply yields_bind; [apply yields_slice|]. intros b [L O]. apply yields_ret.
    pose proof (be_num_bound b O) as B. rewrite L in B. eapply N.lt_le_trans; [exact B|].
    change two64 with (256 ^ 8). apply N.pow_le_mono_r; [discriminate|exact Hk]. }
  repeat match goal with |- yields (if ?c then _ else _) _ => destruct c end;
    try (apply G; vm_compute; discriminate); apply yields_fail.
Qed.

Lemma yields_bytes : yields dec_bytes (fun b => nlen b < two64 /\ octets b).
Proof.
  eapply yields_bind; [apply yields_head|]. intros n L. eapply yields_weaken; [apply yields_slice|].
  intros b [E O]. split; [rewrite E; exact L|exact O].
Qed.

Lemma bytes_string_id b : octets b -> string_bytes (bytes_string b) = b.
Proof.
  induction 1 as [|x b Hx O IH]; [reflexivity|]. cbn [bytes_string string_bytes]. rewrite IH, Ascii.N_ascii_embedding by exact Hx. reflexivity.
Qed.

Lemma yields_str : yields dec_str wf_text.
Proof.
  eapply yields_bind; [apply yields_head|]. intros n L. eapply yields_bind; [apply yields_slice|].
  intros b [E O]. destruct (utf8_valid b) eqn:U; [|apply yields_fail]. apply yields_ret. unfold wf_text.
  rewrite bytes_string_id by exact O. split; [rewrite E; exact L|exact U].
Qed.

Lemma yields_i64 : yields dec_i64 (fun z => (-9223372036854775808 <= z <= 9223372036854775807)%Z).
Proof.
  intros b z r O. unfold dec_i64. destruct (dec_head 0 b) as [[n r1]|] eqn:E.
  - destruct (N.ltb_spec n 9223372036854775808); [|discriminate]. intros X.
    assert (Z.of_N n = z /\ r1 = r) as [<- <-] by (split; congruence).
    destruct (yields_head 0 b n r1 O E) as [_ O1]. split; [lia|exact O1].
  - apply (yields_bind _ _ (fun n => n < two64) (fun z => (-9223372036854775808 <= z <= 9223372036854775807)%Z)); [apply yields_head| |exact O].
    intros n _. destruct (N.ltb_spec n 9223372036854775808); [apply yields_ret; lia|apply yields_fail].
Qed.

Lemma yields_times {A} n (p : parser A) P : yields p P -> yields (times n p) (fun l => length l = n /\ Forall P l).
Proof.
  intros H. induction n as [|n IH]; cbn [times]; [apply yields_ret; auto|].
  eapply yields_bind; [exact H|]. intros a Pa. eapply yields_bind; [exact IH|]. intros l [L F]. apply yields_ret.
  cbn [length]. auto.
Qed.

Lemma bt_insert_Forall (P : string * value -> Prop) k v l : P (k, v) -> Forall P l -> Forall P (bt_insert k v l).
Proof.
  intros Pk. induction 1 as [|[k' v'] l Hx F IH]; cbn [bt_insert]; [auto|].
  destruct (bool_decide _); [auto|]. destruct (String.leb k k'); auto.
Qed.
Lemma bt_insert_length k v l : (length (bt_insert k v l) <= S (length l))%nat.
Proof.
  induction l as [|[k' v'] l IH]; cbn [bt_insert length]; [lia|].
  destruct (bool_decide _); cbn [length]; [lia|]. destruct (String.leb k k'); cbn [length]; lia.
Qed.

Lemma key_lt_trans a b c : key_lt a b -> key_lt b c -> key_lt a c.
Proof.
  intros [L D] [L' D']. split; [eapply leb_trans; eassumption|]. intros ->. apply D. apply String.leb_antisym; assumption.
Qed.
Lemma bt_insert_sorted k v l : StronglySorted key_lt (map fst l) -> StronglySorted key_lt (map fst (bt_insert k v l)).
Proof.
  induction l as [|[k' v'] l IH]; cbn [map fst bt_insert]; [repeat constructor|]. intros S. inversion S as [|? ? S' F]; subst.
  destruct (bool_decide_reflect (k = k')) as [->|D]; [exact S|].
  destruct (String.leb k k') eqn:E.
  - cbn [map fst]. constructor; [exact S|]. assert (K : key_lt k k') by (split; assumption).
    constructor; [exact K|]. eapply Forall_impl; [exact F|]. intros x Hx. eapply key_lt_trans; eassumption.
  - cbn [map fst]. constructor; [apply IH; exact S'|].
    assert (K : key_lt k' k). { split; [|congruence]. destruct (String.leb_total k k'); congruence. }
    rewrite Forall_map. apply bt_insert_Forall; [exact K|]. rewrite <- Forall_map. exact F.
Qed.
Lemma bt_inserts_sound (P : string * value -> Prop) l : Forall P l -> forall m,
  Forall P m -> StronglySorted key_lt (map fst m) ->
  let m' := fold_left (fun m kv => bt_insert (fst kv) (snd kv) m) l m in
  Forall P m' /\ StronglySorted key_lt (map fst m') /\ (length m' <= length m + length l)%nat.
Proof.
  induction 1 as [|[k v] l Pk F IH]; intros m Fm S; cbn [fold_left fst snd length]; [splits; auto; lia|].
  destruct (IH (bt_insert k v m)) as (A & B & C); [apply bt_insert_Forall; assumption|apply bt_insert_sorted; exact S|].
  splits; auto. pose proof (bt_insert_length k v m). lia.
Qed.

(** A value that can be held in memory and written: the texts are UTF-8, the keys of maps ascend, the numbers fit. *)
Lemma yields_value fuel : yields (dec_value fuel) (fun v => wf_value v /\ encodable v = true).
Proof.
  induction fuel as [|f IH]; cbn [dec_value]; [apply yields_fail|].
  eapply yields_bind; [apply yields_head|]. intros n0 _. destruct (negb _); [apply yields_fail|].
  eapply yields_bind.
  { unfold dec_u8. eapply yields_bind; [apply yields_head|]. intros n _. destruct (n <? 256); [apply (yields_ret n (fun _ => True)); exact Logic.I|apply yields_fail]. }
  intros tag _. destruct (tag =? 0).
  { eapply yields_bind; [apply yields_bytes|]. intros b [L _]. apply yields_ret. split; [exact L|reflexivity]. }
  destruct (tag =? 1).
  { eapply yields_bind; [apply yields_str|]. intros s W. apply yields_ret. split; [exact W|reflexivity]. }
  destruct (tag =? 2).
  { eapply yields_bind; [apply yields_head|]. intros n L. apply yields_ret. split; [exact Logic.I|]. cbn [encodable]. apply N.ltb_lt. exact L. }
  destruct (tag =? 3).
  { eapply yields_bind; [apply yields_i64|]. intros z L. apply yields_ret. split; [exact Logic.I|]. cbn [encodable].
    apply andb_true_intro. split; apply Z.leb_le; first [exact (proj1 L)|exact (proj2 L)]. }
  destruct (tag =? 4).
  { eapply yields_bind; [apply yields_head|]. intros n L. eapply yields_bind; [apply yields_times; exact IH|].
    intros l [E F]. apply yields_ret. cbn [wf_value encodable]. split.
    - split; [unfold nlen; rewrite E, N2Nat.id; exact L|]. apply (fold_Forall wf_value). eapply Forall_impl; [exact F|]. cbn beta. tauto.
    - apply forallb_forall. intros x Hx. rewrite Forall_forall in F. apply F. apply elem_of_list_In. exact Hx. }
  destruct (tag =? 5); [|apply yields_fail].
  eapply yields_bind; [apply yields_head|]. intros n L. eapply yields_bind.
  { apply (yields_times _ _ (fun kv : string * value => (wf_text (fst kv) /\ wf_value (snd kv)) /\ encodable (snd kv) = true)).
    eapply yields_bind; [apply yields_str|]. intros k Wk. eapply yields_bind; [exact IH|]. intros v [Wv Ev]. apply yields_ret.
    cbn [fst snd]. auto. }
  intros l [E F]. apply yields_ret.
  destruct (bt_inserts_sound _ l F [] (Forall_nil_2 _) (SSorted_nil _)) as (A & B & C).
  cbn [wf_value encodable]. split.
  - split; [unfold nlen; cbn [length] in C; apply N.le_lt_trans with n; [lia|exact L]|]. split; [exact B|].
    apply (fold_Forall (fun kv : string * value => wf_text (fst kv) /\ wf_value (snd kv))).
    eapply Forall_impl; [exact A|]. cbn beta. tauto.
  - apply forallb_forall. intros x Hx. rewrite Forall_forall in A. apply A. apply elem_of_list_In. exact Hx.
Qed.

(** Whatever bytes are stored, a value read from them can be written, and reads back as itself. *)
Theorem C52_decoded b v :
  octets b -> value_from_bytes b = Some v ->
  wf_value v /\ exists b', enc_value v = Some b' /\ value_from_bytes b' = Some v.
Proof.
  intros O. unfold value_from_bytes at 1. destruct (dec_value (S (length b)) b) as [[w r]|] eqn:E; [|discriminate].
  intros X. assert (w = v) as -> by (cbn in X; congruence).
  destruct (yields_value _ _ _ _ O E) as [[W En] _]. split; [exact W|].
  destruct (enc_value v) as [b'|] eqn:E'.
  - exists b'. split; [reflexivity|]. rewrite <- (app_nil_r b'). apply C52_value; assumption.
  - apply enc_value_encodable in E'. congruence.
Qed.
Print Assumptions C52_decoded.

(** The same for an entry of the index's cache, which keeps its time. *)
Theorem C52_decoded_entry b ts v :
  octets b -> entry_from_bytes b = Some (ts, v) ->
  ts < two64 /\ wf_value v /\ exists b', enc_entry (ts, v) = Some b' /\ entry_from_bytes b' = Some (ts, v).
Proof.
  intros O. unfold entry_from_bytes at 1. destruct (N.ltb_spec (nlen b) 8) as [|L]; [discriminate|].
  destruct (value_from_bytes (skipn 8 b)) as [w|] eqn:E; [|discriminate]. intros X.
  assert (w = v) as -> by congruence. assert (ts = le_num (firstn 8 b)) as T by congruence.
  assert (B : ts < two64).
  { assert (G : forall c, octets c -> le_num c < 256 ^ nlen c).
    { induction 1 as [|x c Hx O' IH]; [reflexivity|]. cbn [le_num].
      replace (nlen (x :: c)) with (N.succ (nlen c)) by (unfold nlen; cbn [length]; lia). rewrite N.pow_succ_r'. lia. }
    specialize (G (firstn 8 b) (Forall_take _ _ _ O)). replace (nlen (firstn 8 b)) with 8 in G; [subst ts; exact G|].
    unfold nlen in *. rewrite firstn_length. lia. }
  destruct (C52_decoded (skipn 8 b) v (Forall_drop _ _ _ O) E) as (W & b' & Eb & _).
  splits; auto. exists (le 8 ts ++ b'). unfold enc_entry. cbn [fst snd]. rewrite Eb. split; [reflexivity|].
  rewrite <- (app_nil_r (le 8 ts ++ b')). apply C52_cache_entry; [exact B|exact W|]. unfold enc_entry. cbn [fst snd]. rewrite Eb. reflexivity.
Qed.
Print Assumptions C52_decoded_entry.

(** ** The same for accounts, approvals and the keys and lists of the index *)
Lemma yields_opt {A} (p : parser A) P : yields p P -> yields (dec_opt p) (fun o => forall a, o = Some a -> P a).
Proof.
  intros H b o r O E.
  assert (G : bind p (fun a => ret (Some a)) b = Some (o, r) -> (forall a, o = Some a -> P a) /\ octets r).
  { clear E. revert b o r O. apply (yields_bind _ _ P); [exact H|]. intros a Pa. apply yields_ret. intros a' X. injection X as <-. exact Pa. }
  destruct b as [|x b]; [apply G; exact E|]. destruct (N.eq_dec x 246) as [->|D].
  - cbn in E. assert (o = None /\ b = r) as [-> <-] by (split; congruence). split; [discriminate|]. inversion O; assumption.
  - apply G. rewrite <- E. unfold dec_opt. repeat (case_match; try reflexivity). destruct (D eq_refl).
Qed.
Lemma yields_account : yields dec_account wf_account.
Proof.
  unfold dec_account. eapply yields_bind; [apply yields_head|]. intros n _. destruct (negb _); [apply yields_fail|].
  eapply yields_bind; [apply yields_bytes|]. intros o _. eapply yields_bind; [apply yields_opt, yields_bytes|]. intros u _.
  destruct (N.leb_spec (nlen o) 29) as [L|]; [|apply yields_fail]. cbn [andb].
  destruct u as [x|]; [destruct (N.eqb_spec (nlen x) 32) as [E|]; [|apply yields_fail]|]; apply yields_ret; (split; [exact L|]); cbn [acc_sub].
  - intros b X. injection X as <-. exact E.
  - discriminate.
Qed.
Lemma yields_byte_vec : yields dec_byte_vec (fun b => nlen b < two64 /\ octets b).
Proof.
  unfold dec_byte_vec. eapply yields_bind; [apply yields_head|]. intros n L. eapply yields_weaken.
  - apply (yields_times _ dec_u8 (fun x => x < 256)). unfold dec_u8. eapply yields_bind; [apply yields_head|]. intros x _.
    destruct (N.ltb_spec x 256); [apply yields_ret; assumption|apply yields_fail].
  - intros b [E F]. split; [unfold nlen; rewrite E, N2Nat.id; exact L|exact F].
Qed.
Lemma yields_approval : yields dec_approval wf_approval.
Proof.
  unfold dec_approval. eapply yields_bind; [apply yields_head|]. intros n _. destruct (_ || _); [|apply yields_fail].
  eapply yields_bind; [apply yields_account|]. intros sp Ws. eapply yields_bind; [apply yields_account|]. intros fr Wf.
  eapply yields_bind; [apply yields_opt, yields_head|]. intros ex We. eapply yields_bind; [apply yields_head|]. intros cr Wc.
  destruct (n =? 5).
  - eapply yields_bind; [apply yields_opt, yields_byte_vec|]. intros me Wm. apply yields_ret.
    unfold wf_approval. cbn [a_spender a_from a_expires a_created a_memo]. splits; auto.
  - apply yields_ret. unfold wf_approval. cbn [a_spender a_from a_expires a_created a_memo]. splits; auto. discriminate.
Qed.
Lemma yields_key : yields dec_key (fun k => wf_key k /\ forall n, k = RToken n -> n < two64).
Proof.
  unfold dec_key. eapply yields_bind; [apply yields_head|]. intros n _. destruct (negb _); [apply yields_fail|].
  eapply yields_bind; [apply yields_head|]. intros t _. eapply yields_bind; [apply yields_head|]. intros m _.
  destruct (negb _); [apply yields_fail|]. destruct (t =? 0); [|destruct (t =? 1); [|destruct (t =? 2); [|apply yields_fail]]].
  - eapply yields_bind; [apply yields_account|]. intros a W. apply yields_ret. split; [exact W|discriminate].
  - eapply yields_bind; [apply yields_str|]. intros a W. apply yields_ret. split; [exact W|discriminate].
  - eapply yields_bind; [apply yields_head|]. intros k L. apply yields_ret. split; [exact Logic.I|]. intros k' X. injection X as <-. exact L.
Qed.

(** Whatever bytes are stored, what is read from them can be written, and reads back as itself. *)
Theorem C52_decoded_account b a r : octets b -> dec_account b = Some (a, r) ->
  wf_account a /\ dec_account (enc_account a) = Some (a, []).
Proof.
  intros O E. destruct (yields_account _ _ _ O E) as [W _]. split; [exact W|].
  rewrite <- (app_nil_r (enc_account a)). apply read_account. exact W.
Qed.
Print Assumptions C52_decoded_account.

Theorem C52_decoded_approval b a r : octets b -> dec_approval b = Some (a, r) ->
  wf_approval a /\ dec_approval (enc_approval a) = Some (a, []).
Proof.
  intros O E. destruct (yields_approval _ _ _ O E) as [W _]. split; [exact W|].
  rewrite <- (app_nil_r (enc_approval a)). apply read_approval. exact W.
Qed.
Print Assumptions C52_decoded_approval.

Theorem C52_decoded_key b k r : octets b -> dec_key b = Some (k, r) ->
  wf_key k /\ exists b', enc_key k = Some b' /\ dec_key b' = Some (k, []).
Proof.
  intros O E. destruct (yields_key _ _ _ O E) as [[W T] _]. split; [exact W|].
  assert (X : exists b', enc_key k = Some b').
  { destruct k as [a|t|n]; cbn [enc_key]; eauto. unfold enc_nat. rewrite (proj2 (N.ltb_lt n two64) (T n eq_refl)). eauto. }
  destruct X as [b' X]. exists b'. split; [exact X|]. rewrite <- (app_nil_r b'). apply C52_index_key; assumption.
Qed.
Print Assumptions C52_decoded_key.

Theorem C52_decoded_ids b l r : octets b -> dec_ids b = Some (l, r) -> dec_ids (enc_ids l) = Some (l, []).
Proof.
  intros O E. unfold dec_ids in E.
  assert (Y : yields (bind dec_array (fun n => times (N.to_nat n) dec_u64)) (fun l => nlen l < two64 /\ Forall (fun x => x < two64) l)).
  { eapply yields_bind; [apply yields_head|]. intros n L. eapply yields_weaken; [apply yields_times, yields_head|].
    intros x [El F]. split; [unfold nlen; rewrite El, N2Nat.id; exact L|exact F]. }
  destruct (Y _ _ _ O E) as [[L F] _]. rewrite <- (app_nil_r (enc_ids l)). apply read_ids; assumption.
Qed.
Print Assumptions C52_decoded_ids.

(** An account with 30 bytes of owner or a subaccount of 31 is refused. *)
Example C52_decoded_example :
  dec_account (enc_array 2 ++ enc_bytes [1; 2] ++ enc_bytes (repeat 7 32)) = Some (mkAcc [1; 2] (Some (repeat 7 32)), []) /\
  dec_account (enc_array 2 ++ enc_bytes (repeat 1 30) ++ enc_null) = None /\
  dec_account (enc_array 2 ++ enc_bytes [1; 2] ++ enc_bytes (repeat 7 31)) = None /\
  (exists a, dec_approval [132; 130; 65; 2; 246; 130; 65; 1; 246; 246; 24; 100] = Some (a, []) /\ a_created a = 100) /\
  dec_key [130; 2; 129; 24; 5] = Some (RToken 5, []) /\ enc_key (RToken 5) = Some [130; 2; 129; 5] /\
  dec_ids [130; 24; 1; 0] = Some ([1; 0], []).
Proof. splits; try (vm_compute; reflexivity). eexists. split; vm_compute; reflexivity. Qed.

(** A stored text that is not UTF-8 is an error. *)
Theorem C52_bad_text c rest fuel :
  octets c -> nlen c < two64 -> (forall cs, Forall scalar cs -> c <> concat (map utf8_char cs)) ->
  dec_value (S fuel) (enc_array 2 ++ enc_u64 1 ++ head 3 (nlen c) ++ c ++ rest) = None.
Proof.
  intros O L N. assert (U : utf8_valid c = false).
  { destruct (utf8_valid c) eqn:U; [|reflexivity]. apply C52_utf8 in U. destruct U as (cs & F & E). destruct (N cs F E). }
  cbn [dec_value]. unfold bind at 1. unfold dec_array, enc_array. rewrite (read_head 4 2) by (unfold two64; lia).
  cbn [negb N.eqb Pos.eqb]. unfold dec_u8, enc_u64. unfold bind at 1 2. rewrite (read_head 0 1) by (unfold two64; lia).
  cbn [N.ltb N.compare Pos.compare Pos.compare_cont]. unfold ret at 1. cbn [N.eqb Pos.eqb].
  unfold dec_str. unfold bind at 1 2. rewrite (read_head 3 (nlen c)) by (try exact L; lia).
  unfold bind. rewrite (slice_reads c rest), U. reflexivity.
Qed.
Print Assumptions C52_bad_text.

(** "é€😀": two, three and four bytes; a lone surrogate and an over-long form are refused; a map whose keys come twice and out
    of order reads as a map in order. *)
Example C52_text_example :
  concat (map utf8_char [233; 8364; 128512]) = [195; 169; 226; 130; 172; 240; 159; 152; 128] /\
  Forall scalar [233; 8364; 128512] /\
  utf8_valid [237; 160; 128] = false /\ utf8_valid [192; 128] = false /\ utf8_valid [244; 144; 128; 128] = false /\
  value_from_bytes [130; 1; 98; 195; 40] = None /\
  (let b := [130; 5; 163; 97; 98; 130; 2; 1; 97; 97; 130; 2; 24; 5; 97; 98; 130; 2; 7] in
   octets b /\ value_from_bytes b = Some (VMap [("a", VNat 5); ("b", VNat 7)]%string) /\
   enc_value (VMap [("a", VNat 5); ("b", VNat 7)]%string) = Some [130; 5; 162; 97; 97; 130; 2; 5; 97; 98; 130; 2; 7]) /\
  entry_from_bytes [1; 0; 0; 0; 0; 0; 0; 0; 130; 2; 24; 200] = Some (1, VNat 200).
Proof.
  split; [vm_compute; reflexivity|]. split.
  { repeat constructor; unfold scalar; lia. }
  do 4 (split; [vm_compute; reflexivity|]). split.
  { split; [repeat constructor|]. split; vm_compute; reflexivity. }
  vm_compute; reflexivity.
Qed.
