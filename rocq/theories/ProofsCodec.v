(** Round trips of the stored encodings. *)
From Verif Require Import Base ModelState ModelIndex ModelCodec.

(** [p] reads exactly the bytes [b] and answers [a], whatever follows. *)
Definition reads {A} (p : parser A) (b : bytes) (a : A) : Prop := forall rest, p (b ++ rest) = Some (a, rest).

Lemma reads_bind {A B} (p : parser A) (f : A -> parser B) b c a x :
  reads p b a -> reads (f a) c x -> reads (bind p f) (b ++ c) x.
Proof. intros P Q rest. unfold bind. rewrite <- app_assoc, P. apply Q. Qed.

Lemma reads_ret {A} (a : A) : reads (ret a) [] a.
Proof. intros rest. reflexivity. Qed.

Lemma reads_map {A B} (p : parser A) (f : A -> B) b a : reads p b a -> reads (bind p (fun x => ret (f x))) b (f a).
Proof. intros P rest. unfold bind. rewrite P. reflexivity. Qed.

Lemma reads_then {A B} (p : parser A) (f : A -> parser B) b a c x :
  reads p b a -> reads (f a) c x -> forall rest, bind p f (b ++ c ++ rest) = Some (x, rest).
Proof. intros P Q rest. unfold bind. rewrite P. apply Q. Qed.

Lemma reads_inj {A} (p : parser A) b c a a' : reads p b a -> reads p (b ++ c) a' -> a = a' /\ c = [].
Proof.
  intros P Q. specialize (P c). specialize (Q []). rewrite app_nil_r in Q. rewrite P in Q. injection Q as -> ->. auto.
Qed.

Lemma reads_times {A} (p : parser A) (f : A -> bytes) l :
  Forall (fun a => reads p (f a) a) l -> reads (times (length l) p) (concat (map f l)) l.
Proof.
  induction l as [|a l IH]; intros F; [apply reads_ret|].
  inversion F; subst. cbn [length times map concat]. eapply reads_bind; [eassumption|]. apply (reads_map _ (cons a)). apply IH. assumption.
Qed.

(** ** Numbers as bytes *)

Lemma be_length k : forall n, length (be k n) = k.
Proof. induction k as [|k IH]; intros n; [reflexivity|]. cbn [be]. rewrite app_length, IH. cbn. lia. Qed.

Lemma be_num_app b x : be_num (b ++ [x]) = 256 * be_num b + x.
Proof. unfold be_num. rewrite fold_left_app. reflexivity. Qed.

Lemma be_num_be k : forall n, n < 256 ^ N.of_nat k -> be_num (be k n) = n.
Proof.
  induction k as [|k IH]; intros n H.
  - cbn in H. assert (n = 0) by lia. subst. reflexivity.
  - cbn [be]. rewrite be_num_app, IH.
    + pose proof (N.div_mod n 256). lia.
    + rewrite Nat2N.inj_succ, N.pow_succ_r' in H. apply N.div_lt_upper_bound; lia.
Qed.

Lemma slice_reads b : reads (slice (nlen b)) b b.
Proof.
  intros rest. unfold slice, nlen. rewrite app_length.
  replace (_ <=? _) with true by (symmetry; apply N.leb_le; lia).
  rewrite Nat2N.id, take_app, drop_app. reflexivity.
Qed.

Lemma slice_be k n : reads (slice (N.of_nat k)) (be k n) (be k n).
Proof. intros rest. pose proof (slice_reads (be k n) rest) as E. unfold nlen in E. rewrite be_length in E. exact E. Qed.

Lemma head_div m i : i < 32 -> (32 * m + i) / 32 = m.
Proof. intros H. symmetry. apply (N.div_unique _ 32 m i); lia. Qed.
Lemma head_mod m i : i < 32 -> (32 * m + i) mod 32 = i.
Proof. intros H. symmetry. apply (N.mod_unique _ 32 m i); lia. Qed.

Lemma read_head m n : n < two64 -> reads (dec_head m) (head m n) n.
Proof.
  intros Hn rest. unfold head, dec_head, two32. destruct (n <? 24) eqn:E.
  - apply N.ltb_lt in E. cbn [app]. unfold bind, next. rewrite head_div, head_mod, N.eqb_refl by lia. cbn [negb].
    apply N.ltb_lt in E. rewrite E. reflexivity.
  - assert (K : forall k i, i < 32 -> i <> 31 -> n < 256 ^ N.of_nat k ->
      bind (slice (N.of_nat k)) (fun b => ret (be_num b)) (be k n ++ rest) = Some (n, rest)).
    { intros k i _ _ B. unfold bind. rewrite (slice_be k n rest), be_num_be by exact B. reflexivity. }
    assert (D : forall i b, i < 32 -> bind next (fun x => if negb (x / 32 =? m) then fail
      else let i := x mod 32 in
         if i <? 24 then ret i
         else if i =? 24 then bind (slice 1) (fun b => ret (be_num b))
         else if i =? 25 then bind (slice 2) (fun b => ret (be_num b))
         else if i =? 26 then bind (slice 4) (fun b => ret (be_num b))
         else if i =? 27 then bind (slice 8) (fun b => ret (be_num b))
         else fail) ((32 * m + i) :: b) =
         (if i <? 24 then ret i
         else if i =? 24 then bind (slice 1) (fun b => ret (be_num b))
         else if i =? 25 then bind (slice 2) (fun b => ret (be_num b))
         else if i =? 26 then bind (slice 4) (fun b => ret (be_num b))
         else if i =? 27 then bind (slice 8) (fun b => ret (be_num b))
         else fail) b).
    { intros i b Hi. unfold bind at 1, next. rewrite head_div, head_mod, N.eqb_refl by exact Hi. reflexivity. }
    destruct (n <? 256) eqn:E1; [|destruct (n <? 65536) eqn:E2; [|destruct (n <? 4294967296) eqn:E3]];
      rewrite <- app_comm_cons, D by lia; cbn [N.ltb N.eqb N.compare Pos.compare Pos.compare_cont Pos.eqb].
    + apply (K 1%nat 24); [lia|lia|]. apply N.ltb_lt in E1. exact E1.
    + apply (K 2%nat 25); [lia|lia|]. apply N.ltb_lt in E2. exact E2.
    + apply (K 4%nat 26); [lia|lia|]. apply N.ltb_lt in E3. exact E3.
    + apply (K 8%nat 27); [lia|lia|]. exact Hn.
Qed.

Lemma head_first m n : exists i r, head m n = (32 * m + i) :: r /\ i < 28.
Proof.
  unfold head. destruct (n <? 24) eqn:E; [apply N.ltb_lt in E; exists n, []; split; [reflexivity|lia]|].
  destruct (n <? 256); [eexists 24, _; split; [reflexivity|lia]|].
  destruct (n <? 65536); [eexists 25, _; split; [reflexivity|lia]|].
  destruct (n <? two32); [eexists 26, _; split; [reflexivity|lia]|].
  eexists 27, _; split; [reflexivity|lia].
Qed.

Lemma head_other m m' n rest : m <> m' -> dec_head m' (head m n ++ rest) = None.
Proof.
  intros D. destruct (head_first m n) as (i & r & -> & Hi). cbn [app]. unfold dec_head, bind, next.
  rewrite head_div by lia. apply N.eqb_neq in D. rewrite D. reflexivity.
Qed.

Lemma head_length m n : (1 <= length (head m n))%nat.
Proof. destruct (head_first m n) as (i & r & -> & _). cbn. lia. Qed.

Lemma read_u64 n : n < two64 -> reads dec_u64 (enc_u64 n) n.
Proof. apply read_head. Qed.

Lemma read_u8 n : n < 256 -> reads dec_u8 (enc_u64 n) n.
Proof.
  intros H rest. unfold dec_u8, bind. rewrite (read_head 0 n) by (unfold two64; lia). apply N.ltb_lt in H. rewrite H. reflexivity.
Qed.

Lemma read_i64 z : (-9223372036854775808 <= z <= 9223372036854775807)%Z -> reads dec_i64 (enc_i64 z) z.
Proof.
  intros H rest. unfold dec_i64, enc_i64. destruct (0 <=? z)%Z eqn:E.
  - apply Z.leb_le in E. rewrite (read_head 0) by (unfold two64; lia).
    replace (_ <? _) with true by (symmetry; apply N.ltb_lt; lia). rewrite Z2N.id by exact E. reflexivity.
  - apply Z.leb_gt in E. rewrite head_other by lia. unfold bind. rewrite (read_head 1) by (unfold two64; lia).
    replace (_ <? _) with true by (symmetry; apply N.ltb_lt; lia). unfold ret. rewrite Z2N.id by lia.
    f_equal. f_equal. lia.
Qed.

Lemma read_bytes b : nlen b < two64 -> reads dec_bytes (enc_bytes b) b.
Proof. intros H. eapply reads_bind; [apply read_head; exact H|apply slice_reads]. Qed.

Lemma string_bytes_id s : bytes_string (string_bytes s) = s.
Proof. induction s as [|c s IH]; [reflexivity|]. cbn [string_bytes bytes_string]. rewrite Ascii.ascii_N_embedding, IH. reflexivity. Qed.

(** A text as Rust's [String] holds it: UTF-8, and its length fits 64 bits. *)
Definition wf_text (s : string) : Prop := nlen (string_bytes s) < two64 /\ utf8_valid (string_bytes s) = true.

Lemma read_str s : wf_text s -> reads dec_str (enc_str s) s.
Proof.
  intros [H U]. eapply reads_bind; [apply read_head; exact H|].
  intros rest. unfold bind. rewrite (slice_reads (string_bytes s) rest), U. unfold ret. rewrite string_bytes_id. reflexivity.
Qed.

Lemma read_opt_none {A} (p : parser A) : reads (dec_opt p) enc_null None.
Proof. intros rest. reflexivity. Qed.

Lemma read_opt_some {A} (p : parser A) b a : reads p b a -> (exists x r, b = x :: r /\ x <> 246) -> reads (dec_opt p) b (Some a).
Proof.
  intros P (x & r & -> & D) rest. specialize (P rest). cbn [app] in *. unfold dec_opt.
  assert (E : forall A (y z : A), match x with 246 => y | _ => z end = z).
  { clear P. intros. destruct x as [|q]; [reflexivity|]. destruct q; try reflexivity.
    repeat (match goal with |- match ?q with _ => _ end = _ => destruct q end; try reflexivity); congruence. }
  transitivity (bind p (fun a => ret (Some a)) (x :: r ++ rest)).
  - clear P. destruct x as [|q]; [reflexivity|].
    repeat (match goal with |- match ?q with _ => _ end = _ => destruct q end; try reflexivity); congruence.
  - unfold bind. rewrite P. reflexivity.
Qed.

Lemma head_not_null m n : m < 7 -> exists x r, head m n = x :: r /\ x <> 246.
Proof. intros H. destruct (head_first m n) as (i & r & -> & Hi). eexists _, _. split; [reflexivity|]. lia. Qed.

Lemma app_not_null b c : (exists x r, b = x :: r /\ x <> 246) -> exists x r, b ++ c = x :: r /\ x <> 246.
Proof. intros (x & r & -> & D). eexists _, _. split; [reflexivity|exact D]. Qed.

(** ** Accounts *)

(** An account as the canister can hold it: a principal of at most 29 bytes, a subaccount of 32. *)
Definition wf_account (a : account) : Prop :=
  nlen (acc_owner a) <= 29 /\ forall b, acc_sub a = Some b -> nlen b = 32.

Lemma read_account a : wf_account a -> reads dec_account (enc_account a) a.
Proof.
  intros [O S]. unfold dec_account, enc_account. eapply reads_bind; [apply read_head; unfold two64; lia|]. cbn [negb N.eqb Pos.eqb].
  eapply reads_bind; [apply read_bytes; unfold two64; lia|].
  destruct a as [o [s|]]; cbn [acc_owner acc_sub] in *.
  - rewrite <- (app_nil_r (enc_bytes s)). eapply reads_bind.
    + apply read_opt_some; [apply read_bytes; rewrite (S s eq_refl); unfold two64; lia|].
      apply app_not_null, head_not_null. lia.
    + cbn beta. apply N.leb_le in O. rewrite O, (S s eq_refl). apply reads_ret.
  - rewrite <- (app_nil_r enc_null). eapply reads_bind; [apply read_opt_none|].
    cbn beta. apply N.leb_le in O. rewrite O. apply reads_ret.
Qed.

(** ** Values *)

(** Nested induction for values. *)
Lemma value_ind' (P : value -> Prop) :
  (forall b, P (VBlob b)) -> (forall s, P (VText s)) -> (forall n, P (VNat n)) -> (forall z, P (VInt z)) ->
  (forall l, Forall P l -> P (VArray l)) -> (forall l, Forall (fun kv => P (snd kv)) l -> P (VMap l)) -> forall v, P v.
Proof.
  intros B T Nn I A M. fix IH 1. intros [b|s|n|z|l|l]; [apply B|apply T|apply Nn|apply I|apply A|apply M].
  - induction l as [|x l IHl]; constructor; [apply IH|exact IHl].
  - induction l as [|[k x] l IHl]; constructor; [apply IH|exact IHl].
Qed.

(** Keys strictly ascending, as in a [BTreeMap]. *)
Definition key_lt (a b : string) : Prop := String.leb a b = true /\ a <> b.

(** Values as the canister can hold them: lengths fit 64 bits, maps have ascending keys. *)
Fixpoint wf_value (v : value) : Prop :=
  match v with
  | VBlob b => nlen b < two64
  | VText s => wf_text s
  | VNat _ | VInt _ => True
  | VArray l => nlen l < two64 /\ fold_right (fun v P => wf_value v /\ P) True l
  | VMap l => nlen l < two64 /\ StronglySorted key_lt (map fst l) /\
      fold_right (fun kv P => (wf_text (fst kv) /\ wf_value (snd kv)) /\ P) True l
  end.

Lemma fold_Forall {A} (P : A -> Prop) l : fold_right (fun v Q => P v /\ Q) True l <-> Forall P l.
Proof. induction l as [|a l IH]; cbn [fold_right]; [split; auto|]. rewrite Forall_cons, IH. reflexivity. Qed.

Lemma all_some_spec {A B} (f : A -> option B) l bs : all_some (map f l) = Some bs <-> Forall2 (fun a b => f a = Some b) l bs.
Proof.
  revert bs. induction l as [|a l IH]; intros bs; cbn [map all_some].
  - split; [intros [= <-]; constructor|]. inversion 1. reflexivity.
  - split.
    + destruct (f a) eqn:E; [|discriminate]. destruct (all_some (map f l)) eqn:F; [|discriminate]. intros [= <-].
      constructor; [exact E|]. apply IH. reflexivity.
    + inversion 1 as [|? b ? bs' E F]; subst. rewrite E. apply IH in F. rewrite F. reflexivity.
Qed.

Lemma all_some_none {A B} (f : A -> option B) l : all_some (map f l) = None <-> Exists (fun a => f a = None) l.
Proof.
  induction l as [|a l IH]; cbn [map all_some].
  - split; [discriminate|]. inversion 1.
  - rewrite Exists_cons, <- IH. destruct (f a); [|split; auto]. destruct (all_some (map f l)); split; try tauto; try discriminate.
    intros [X|X]; discriminate.
Qed.

Lemma times_reads2 {A} (p : parser A) l bs : Forall2 (fun a b => reads p b a) l bs -> reads (times (length l) p) (concat bs) l.
Proof.
  induction 1 as [|a b l bs H F IH]; [apply reads_ret|]. cbn [length times concat]. eapply reads_bind; [exact H|].
  apply (reads_map _ (cons a)). exact IH.
Qed.

Lemma bt_insert_end k v l : Forall (fun kv => key_lt (fst kv) k) l -> bt_insert k v l = l ++ [(k, v)].
Proof.
  induction 1 as [|[k' v'] l [L D] F IH]; [reflexivity|]. cbn [bt_insert fst app] in *.
  rewrite bool_decide_eq_false_2 by congruence. destruct (String.leb k k') eqn:E.
  - exfalso. apply D. apply String.leb_antisym; assumption.
  - rewrite IH. reflexivity.
Qed.

Lemma bt_inserts l : forall pre, StronglySorted key_lt (map fst (pre ++ l)) ->
  fold_left (fun m kv => bt_insert (fst kv) (snd kv) m) l pre = pre ++ l.
Proof.
  induction l as [|[k v] l IH]; intros pre S; [rewrite app_nil_r; reflexivity|].
  cbn [fold_left fst snd]. rewrite bt_insert_end.
  - rewrite IH; rewrite <- app_assoc; [reflexivity|exact S].
  - rewrite map_app in S. cbn [map fst] in S. clear IH. induction pre as [|[k' v'] pre IHp]; [constructor|].
    cbn [map app fst] in S. inversion S as [|? ? S' F]; subst. constructor; [|apply IHp; exact S'].
    rewrite Forall_app in F. destruct F as [_ F]. inversion F; subst. assumption.
Qed.

Lemma enc_2 t b : (length b + 2 <= length (enc_array 2 ++ enc_u64 t ++ b))%nat.
Proof.
  rewrite !app_length. unfold enc_array, enc_u64. pose proof (head_length 4 2). pose proof (head_length 0 t). lia.
Qed.

Lemma concat_length_in {A} (x : list A) l : x ∈ l -> (length x <= length (concat l))%nat.
Proof. induction 1; cbn [concat]; rewrite app_length; lia. Qed.

Lemma read_value v : forall b fuel, wf_value v -> enc_value v = Some b -> (length b <= fuel)%nat -> reads (dec_value fuel) b v.
Proof.
  assert (Inj : forall A (x y : A), Some x = Some y -> y = x) by congruence.
  assert (Start : forall t b (w : value) (q : N -> parser value), t < 256 ->
    reads (q t) b w ->
    reads (bind dec_array (fun n => if negb (n =? 2) then fail else bind dec_u8 q)) (enc_array 2 ++ enc_u64 t ++ b) w).
  { intros t b w q Ht Q. eapply reads_bind; [apply read_head; unfold two64; lia|]. cbn [negb N.eqb Pos.eqb].
    eapply reads_bind; [apply read_u8; exact Ht|exact Q]. }
  induction v as [b|s|n|z|l IH|l IH] using value_ind'; intros b0 fuel W E Hf; cbn [enc_value] in E.
  - apply Inj in E; subst b0. pose proof (enc_2 0 (enc_bytes b)). destruct fuel as [|f]; [lia|]. cbn [dec_value].
    apply Start; [lia|]. cbn [N.eqb Pos.eqb]. apply reads_map, read_bytes. exact W.
  - apply Inj in E; subst b0. pose proof (enc_2 1 (enc_str s)). destruct fuel as [|f]; [lia|]. cbn [dec_value].
    apply Start; [lia|]. cbn [N.eqb Pos.eqb]. apply reads_map, read_str. exact W.
  - destruct (n <? two64) eqn:L; [|discriminate]. apply Inj in E; subst b0. pose proof (enc_2 2 (enc_u64 n)).
    destruct fuel as [|f]; [lia|]. cbn [dec_value]. apply Start; [lia|]. cbn [N.eqb Pos.eqb].
    apply reads_map, read_u64. apply N.ltb_lt in L. exact L.
  - destruct (_ && _)%bool eqn:L; [|discriminate]. apply Inj in E; subst b0. pose proof (enc_2 3 (enc_i64 z)).
    destruct fuel as [|f]; [lia|]. cbn [dec_value]. apply Start; [lia|]. cbn [N.eqb Pos.eqb].
    apply reads_map, read_i64. apply andb_prop in L as [L1 L2]. apply Z.leb_le in L1, L2. lia.
  - destruct (all_some (map enc_value l)) as [bs|] eqn:A; [|discriminate]. apply Inj in E; subst b0.
    pose proof (enc_2 4 (enc_array (nlen l) ++ concat bs)) as H2. rewrite app_length in H2.
    destruct fuel as [|f]; [lia|]. cbn [dec_value]. apply Start; [lia|]. cbn [N.eqb Pos.eqb].
    cbn [wf_value] in W. destruct W as [Wl Wf]. apply (fold_Forall wf_value) in Wf.
    eapply reads_bind; [apply read_head; exact Wl|]. apply reads_map. unfold nlen. rewrite Nat2N.id.
    apply all_some_spec in A. apply times_reads2.
    assert (B : Forall (fun b => (length b <= f)%nat) bs).
    { rewrite Forall_forall. intros x Hx. apply concat_length_in in Hx. lia. }
    clear H2 Hf Wl. revert IH Wf B. induction A as [|a b l bs Ha A IHA]; intros IH Wf B; [constructor|].
    inversion IH; inversion Wf; inversion B; subst. constructor; [|apply IHA; assumption]. eauto.
  - destruct (all_some _) as [bs|] eqn:A; [|discriminate]. apply Inj in E; subst b0.
    pose proof (enc_2 5 (enc_map (nlen l) ++ concat bs)) as H2. rewrite app_length in H2.
    destruct fuel as [|f]; [lia|]. cbn [dec_value]. apply Start; [lia|]. cbn [N.eqb Pos.eqb].
    cbn [wf_value] in W. destruct W as (Wl & So & Wf). apply (fold_Forall (fun kv : string * value => wf_text (fst kv) /\ wf_value (snd kv))) in Wf.
    eapply reads_bind; [apply read_head; exact Wl|].
    rewrite <- (bt_inserts l []) at 2 by exact So.
    apply (reads_map _ (fun l => VMap (fold_left (fun m kv => bt_insert (fst kv) (snd kv) m) l []))). unfold nlen. rewrite Nat2N.id.
    apply all_some_spec in A. apply times_reads2.
    assert (B : Forall (fun b => (length b <= f)%nat) bs).
    { rewrite Forall_forall. intros x Hx. apply concat_length_in in Hx. lia. }
    clear H2 Hf Wl So. revert IH Wf B. induction A as [|[k a] b l bs Ha A IHA]; intros IH Wf B; [constructor|].
    inversion IH; inversion Wf; inversion B; subst. constructor; [|apply IHA; assumption].
    cbn [fst snd] in *. destruct (enc_value a) as [c|] eqn:Ec; [|discriminate]. injection Ha as <-.
    eapply reads_bind; [apply read_str; tauto|]. apply (reads_map _ (pair k)).
    match goal with H : forall b fuel, _ |- _ => apply H; [tauto|reflexivity|] end. rewrite app_length in *. lia.
Qed.

Lemma enc_value_encodable v : enc_value v = None <-> encodable v = false.
Proof.
  induction v as [b|s|n|z|l IH|l IH] using value_ind'; cbn [enc_value encodable]; try (split; discriminate).
  - destruct (n <? two64); split; try discriminate; reflexivity.
  - destruct (_ && _)%bool; split; try discriminate; reflexivity.
  - destruct (all_some (map enc_value l)) as [bs|] eqn:A.
    + split; [discriminate|]. intros F. exfalso. apply all_some_spec in A.
      assert (T : forallb encodable l = true); [|congruence]. clear F. revert IH. induction A as [|a b l bs Ha A IHA]; intros IH; [reflexivity|].
      inversion IH; subst. cbn [forallb]. rewrite IHA by assumption. destruct (encodable a); [reflexivity|].
      destruct H1 as [_ H1]. specialize (H1 eq_refl). congruence.
    + split; [intros _|reflexivity]. apply all_some_none in A. clear -A IH.
      induction A as [a l Ha|a l A IHA]; inversion IH; subst; cbn [forallb].
      * apply H1 in Ha. rewrite Ha. reflexivity.
      * rewrite IHA by assumption. apply andb_false_r.
  - destruct (all_some _) as [bs|] eqn:A.
    + split; [discriminate|]. intros F. exfalso. apply all_some_spec in A.
      assert (T : forallb (fun kv : string * value => encodable (snd kv)) l = true); [|congruence]. clear F. revert IH. induction A as [|a b l bs Ha A IHA]; intros IH; [reflexivity|].
      inversion IH; subst. cbn [forallb]. rewrite IHA by assumption. destruct (encodable (snd a)); [reflexivity|].
      destruct H1 as [_ H1]. specialize (H1 eq_refl). rewrite H1 in Ha. discriminate.
    + split; [intros _|reflexivity]. apply all_some_none in A. clear -A IH.
      induction A as [a l Ha|a l A IHA]; inversion IH; subst; cbn [forallb].
      * destruct (enc_value (snd a)); [discriminate|]. rewrite (proj1 H1 eq_refl). reflexivity.
      * rewrite IHA by assumption. apply andb_false_r.
Qed.

(** ** Maps of values and of approvals *)

Lemma insert_pairs {K A B} `{Countable K} (key : A -> K) (val : A -> B) (l : list A) :
  NoDup (map key l) -> forall (m : gmap K B) k x,
  fold_left (fun m a => <[key a := val a]> m) l m !! k = Some x <->
  (exists a, a ∈ l /\ key a = k /\ val a = x) \/ (~ (exists a, a ∈ l /\ key a = k) /\ m !! k = Some x).
Proof.
  induction l as [|a l IH]; intros ND m k x; cbn [fold_left].
  - split; [intros E; right; split; [intros (a & I & _); inversion I|exact E]|]. intros [(a & I & _)|[_ E]]; [inversion I|exact E].
  - cbn [map] in ND. apply NoDup_cons in ND. destruct ND as [N1 N2]. rewrite (IH N2). split.
    + intros [(b & I & E1 & E2)|[N E]].
      * left. exists b. split; [right; exact I|auto].
      * apply lookup_insert_Some in E. destruct E as [[<- <-]|[D E]].
        -- left. exists a. split; [left|auto].
        -- right. split; [|exact E]. intros (b & I & E1). apply elem_of_cons in I. destruct I as [->|I]; [congruence|]. apply N. eauto.
    + intros [(b & I & E1 & E2)|[N E]].
      * apply elem_of_cons in I. destruct I as [->|I]; [|left; eauto]. right. split.
        -- intros (c & I & E3). apply N1. apply elem_of_list_fmap. exists c. split; [congruence|exact I].
        -- subst. apply lookup_insert.
      * right. split; [intros (b & I & E1); apply N; exists b; split; [right; exact I|exact E1]|].
        rewrite lookup_insert_ne; [exact E|]. intros D. apply N. exists a. split; [left|exact D].
Qed.

Lemma read_pair k v b fuel : wf_text k -> wf_value v -> enc_value v = Some b -> (length b <= fuel)%nat ->
  reads (bind dec_str (fun k => bind (dec_value fuel) (fun v => ret (k, v)))) (enc_str k ++ b) (k, v).
Proof. intros K W E F. eapply reads_bind; [apply read_str; exact K|]. apply (reads_map _ (pair k)). eapply read_value; eauto. Qed.

(** Metadata as the canister can hold it. *)
Definition wf_metadata (m : gmap string value) : Prop :=
  N.of_nat (size m) < two64 /\ forall k v, m !! k = Some v -> wf_text k /\ wf_value v.

Lemma sorted_pairs_perm m : sorted_pairs m ≡ₚ map_to_list m.
Proof. apply merge_sort_Permutation. Qed.

Lemma read_metadata m b fuel : wf_metadata m -> enc_metadata m = Some b -> (length b <= fuel)%nat -> reads (dec_metadata fuel) b m.
Proof.
  intros [W1 W2] E F. unfold enc_metadata in E. destruct (all_some _) as [bs|] eqn:A; [|discriminate].
  assert (Inj : forall A (x y : A), Some x = Some y -> y = x) by congruence. apply Inj in E. subst b.
  assert (L : length (sorted_pairs m) = size m).
  { rewrite (Permutation_length (sorted_pairs_perm m)). reflexivity. }
  unfold dec_metadata. eapply reads_bind; [apply read_head; exact W1|]. rewrite Nat2N.id, <- L.
  assert (M : fold_left (fun m kv => <[fst kv := snd kv]> m) (sorted_pairs m) ∅ = m).
  { apply map_eq. intros k. apply option_eq. intros x. rewrite (insert_pairs fst snd).
    - split.
      + intros [([k' v] & I & <- & <-)|[_ X]]; [|rewrite lookup_empty in X; discriminate].
        apply elem_of_map_to_list. rewrite <- sorted_pairs_perm. exact I.
      + intros X. left. exists (k, x). split; [|auto]. rewrite sorted_pairs_perm. apply elem_of_map_to_list. exact X.
    - rewrite sorted_pairs_perm. apply NoDup_fst_map_to_list. }
  rewrite <- M at 2. apply (reads_map _ (fun l => fold_left (fun m kv => <[fst kv := snd kv]> m) l ∅)).
  apply all_some_spec in A. apply times_reads2.
  assert (B : Forall (fun b => (length b <= fuel)%nat) bs).
  { rewrite Forall_forall. intros x Hx. apply concat_length_in in Hx. rewrite app_length in F. lia. }
  assert (W : Forall (fun kv : string * value => wf_text (fst kv) /\ wf_value (snd kv)) (sorted_pairs m)).
  { rewrite Forall_forall. intros [k v] I. apply W2. apply elem_of_map_to_list. rewrite <- sorted_pairs_perm. exact I. }
  clear -A B W. induction A as [|[k v] b l bs Ha A IHA]; [constructor|]. inversion W; inversion B; subst.
  constructor; [|apply IHA; assumption]. cbn [fst snd] in *. destruct (enc_value v) as [c|] eqn:Ec; [|discriminate].
  injection Ha as <-. apply read_pair; try tauto. rewrite app_length in *. lia.
Qed.

(** Approvals as the canister can hold them. *)
Definition wf_approval (a : approval) : Prop :=
  wf_account (a_spender a) /\ wf_account (a_from a) /\ (forall x, a_expires a = Some x -> x < two64) /\ a_created a < two64 /\
  forall b, a_memo a = Some b -> nlen b < two64 /\ Forall (fun x => x < 256) b.

Lemma read_byte_vec b : nlen b < two64 -> Forall (fun x => x < 256) b -> reads dec_byte_vec (enc_byte_vec b) b.
Proof.
  intros L F. eapply reads_bind; [apply read_head; exact L|]. unfold nlen. rewrite Nat2N.id. apply reads_times.
  eapply Forall_impl; [exact F|]. intros x Hx. apply read_u8. exact Hx.
Qed.

Lemma read_approval a : wf_approval a -> reads dec_approval (enc_approval a) a.
Proof.
  intros (Ws & Wf & We & Wc & Wm). destruct a as [sp fr ex cr me]. cbn [a_spender a_from a_expires a_created a_memo] in *.
  unfold dec_approval, enc_approval. cbn [a_spender a_from a_expires a_created a_memo].
  assert (Hex : reads (dec_opt dec_u64) (match ex with Some x => enc_u64 x | None => enc_null end) ex).
  { destruct ex; [|apply read_opt_none]. apply read_opt_some; [apply read_u64; auto|apply head_not_null; lia]. }
  destruct me as [mb|].
  - eapply reads_bind; [apply read_head; unfold two64; lia|]. cbn [orb N.eqb Pos.eqb].
    eapply reads_bind; [apply read_account; exact Ws|]. eapply reads_bind; [apply read_account; exact Wf|].
    eapply reads_bind; [exact Hex|]. eapply reads_bind; [apply read_u64; exact Wc|].
    apply (reads_map _ (mkAppr sp fr ex cr)). apply read_opt_some; [|apply app_not_null, head_not_null; lia].
    apply read_byte_vec; apply Wm; reflexivity.
  - eapply reads_bind; [apply read_head; unfold two64; lia|]. cbn [orb N.eqb Pos.eqb].
    eapply reads_bind; [apply read_account; exact Ws|]. eapply reads_bind; [apply read_account; exact Wf|].
    eapply reads_bind; [exact Hex|]. eapply reads_bind; [apply read_u64; exact Wc|]. apply reads_ret.
Qed.

(** Entries of an approval map in the order of some enumeration of the hash map. *)
Definition enumerates (l : list (account * approval)) (m : appmap) : Prop := l ≡ₚ map snd (map_to_list m).
(** Keys of an approval map are those of its accounts; all entries can be stored. *)
Definition keyed (m : appmap) : Prop := forall k ka ap, m !! k = Some (ka, ap) -> akey ka = k.
(** See [wf_approval]. *)
Definition wf_approvals (m : appmap) : Prop :=
  N.of_nat (size m) < two64 /\ forall k ka ap, m !! k = Some (ka, ap) -> wf_account ka /\ wf_approval ap.

Lemma appmap_inserts l : NoDup (map (fun x => akey (fst x)) l) -> forall m,
  (forall x, x ∈ l -> m !! akey (fst x) = None) ->
  fold_left (fun m (x : account * approval) => appmap_insert (fst x) (snd x) m) l m =
  fold_left (fun m (x : account * approval) => <[akey (fst x) := x]> m) l m.
Proof.
  induction l as [|[k a] l IH]; intros ND m N; [reflexivity|]. cbn [map] in ND. apply NoDup_cons in ND. destruct ND as [N1 N2].
  cbn [fold_left fst snd]. pose proof (N (k, a) ltac:(left)) as E. cbn [fst] in E. unfold appmap_insert at 2. rewrite E. apply IH; [exact N2|].
  intros x Hx. rewrite lookup_insert_ne; [apply N; right; exact Hx|]. intros D. apply N1. apply elem_of_list_fmap. exists x. auto.
Qed.

Lemma read_approvals m l : keyed m -> wf_approvals m -> enumerates l m -> reads dec_approvals (enc_approvals l) m.
Proof.
  intros K [W1 W2] P.
  assert (L : nlen l = N.of_nat (size m)). { unfold nlen. rewrite (Permutation_length P), map_length. reflexivity. }
  assert (KE : map (fun x : acckey * (account * approval) => akey (fst (snd x))) (map_to_list m) = map fst (map_to_list m)).
  { apply map_ext_in. intros [k [ka ap]] I. apply elem_of_list_In, elem_of_map_to_list in I. cbn. eapply K. exact I. }
  assert (ND : NoDup (map (fun x : account * approval => akey (fst x)) l)).
  { rewrite P, map_map. change (NoDup (map (fun x : acckey * (account * approval) => akey (fst (snd x))) (map_to_list m))).
    rewrite KE. apply NoDup_fst_map_to_list. }
  unfold dec_approvals, enc_approvals. eapply reads_bind; [apply read_head; rewrite L; exact W1|]. unfold nlen. rewrite Nat2N.id.
  assert (M : fold_left (fun m x => appmap_insert (fst x) (snd x) m) l ∅ = m).
  { rewrite appmap_inserts; [|exact ND|intros; apply lookup_empty]. apply map_eq. intros k. apply option_eq. intros x.
    rewrite (insert_pairs (fun x => akey (fst x)) id) by exact ND. split.
    - intros [(y & I & <- & <-)|[_ X]]; [|rewrite lookup_empty in X; discriminate]. rewrite P in I.
      apply elem_of_list_fmap in I. destruct I as ([k [ka ap]] & -> & I). apply elem_of_map_to_list in I. cbn.
      rewrite (K _ _ _ I). exact I.
    - intros X. left. exists x. destruct x as [ka ap]. split; [|split; [eapply K; exact X|reflexivity]].
      rewrite P. apply elem_of_list_fmap. exists (k, (ka, ap)). split; [reflexivity|]. apply elem_of_map_to_list. exact X. }
  rewrite <- M. apply (reads_map _ (fun l => fold_left (fun m x => appmap_insert (fst x) (snd x) m) l ∅)).
  apply reads_times. rewrite Forall_forall. intros [ka ap] I. rewrite P in I. apply elem_of_list_fmap in I.
  destruct I as ([k [ka' ap']] & [= -> ->] & I). apply elem_of_map_to_list in I. destruct (W2 _ _ _ I) as [Wa Wp].
  eapply reads_bind; [apply read_account; exact Wa|]. apply (reads_map _ (pair ka')). apply read_approval. exact Wp.
Qed.

(** ** Index *)

(** Index keys as the canister can hold them. *)
Definition wf_key (k : rawkey) : Prop :=
  match k with RAccount a => wf_account a | RType s => wf_text s | RToken _ => True end.

Lemma read_key k b : wf_key k -> enc_key k = Some b -> reads dec_key b k.
Proof.
  assert (Inj : forall A (x y : A), Some x = Some y -> y = x) by congruence.
  assert (Start : forall t b (q : N -> parser rawkey), t < two64 -> reads (q t) b k ->
    reads (bind dec_array (fun n => if negb (n =? 2) then fail else bind dec_u64 (fun t => bind dec_array (fun m => if negb (m =? 1) then fail else q t))))
      (enc_array 2 ++ enc_u64 t ++ enc_array 1 ++ b) k).
  { intros t c q Ht Q. eapply reads_bind; [apply read_head; unfold two64; lia|]. cbn [negb N.eqb Pos.eqb].
    eapply reads_bind; [apply read_u64; exact Ht|]. eapply reads_bind; [apply read_head; unfold two64; lia|exact Q]. }
  intros W E. destruct k as [a|s|n]; cbn [enc_key wf_key] in *.
  - apply Inj in E. subst b. unfold dec_key. apply (Start 0); [unfold two64; lia|]. cbn [N.eqb Pos.eqb]. apply reads_map, read_account, W.
  - apply Inj in E. subst b. unfold dec_key. apply (Start 1); [unfold two64; lia|]. cbn [N.eqb Pos.eqb]. apply reads_map, read_str, W.
  - unfold enc_nat in E. destruct (n <? two64) eqn:L; [|discriminate]. apply Inj in E. subst b. unfold dec_key.
    apply (Start 2); [unfold two64; lia|]. cbn [N.eqb Pos.eqb]. apply reads_map, read_u64. apply N.ltb_lt in L. exact L.
Qed.

Lemma read_ids l : nlen l < two64 -> Forall (fun x => x < two64) l -> reads dec_ids (enc_ids l) l.
Proof.
  intros L F. eapply reads_bind; [apply read_head; exact L|]. unfold nlen. rewrite Nat2N.id. apply reads_times.
  eapply Forall_impl; [exact F|]. intros x Hx. apply read_u64. exact Hx.
Qed.

Lemma le_length k : forall n, length (le k n) = k.
Proof. induction k as [|k IH]; intros n; [reflexivity|]. cbn [le length]. rewrite IH. reflexivity. Qed.

Lemma le_num_le k : forall n, n < 256 ^ N.of_nat k -> le_num (le k n) = n.
Proof.
  induction k as [|k IH]; intros n H.
  - cbn in H. assert (n = 0) by lia. subst. reflexivity.
  - cbn [le le_num]. rewrite IH.
    + pose proof (N.div_mod n 256). lia.
    + rewrite Nat2N.inj_succ, N.pow_succ_r' in H. apply N.div_lt_upper_bound; lia.
Qed.
