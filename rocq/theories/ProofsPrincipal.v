(** The textual form of a principal determines it. *)
From Verif Require Import Base ModelPrincipal.

Lemma all_small (P : N -> bool) k : forallb P (map N.of_nat (seq 0 k)) = true -> forall n, n < N.of_nat k -> P n = true.
Proof.
  intros H n Hn. rewrite forallb_forall in H. apply H. apply in_map_iff. exists (N.to_nat n).
  split; [apply N2Nat.id|]. apply in_seq. lia.
Qed.

Lemma byte_bits_inv b : b < 256 -> bits_byte (byte_bits b) = b.
Proof.
  intros H. apply N.eqb_eq. revert b H. apply (all_small (fun b => bits_byte (byte_bits b) =? b) 256). vm_compute. reflexivity.
Qed.

Lemma bits_bytes_app b r : b < 256 -> bits_bytes (byte_bits b ++ r) = b :: bits_bytes r.
Proof.
  intros H. transitivity (bits_byte (byte_bits b) :: bits_bytes r); [reflexivity|]. rewrite byte_bits_inv by exact H. reflexivity.
Qed.

Lemma bits_bytes_concat l r : Forall (fun b => b < 256) l -> (length r < 8)%nat ->
  bits_bytes (concat (map byte_bits l) ++ r) = l.
Proof.
  intros H Hr. induction H as [|b l Hb H IH].
  - simpl. destruct r as [|? [|? [|? [|? [|? [|? [|? [|? ?]]]]]]]]; simpl in Hr; try reflexivity; lia.
  - cbn [map concat]. rewrite <- app_assoc, bits_bytes_app, IH by exact Hb. reflexivity.
Qed.

Definition no_dash (c : Ascii.ascii) : Prop := Ascii.eqb c (Ascii.ascii_of_N 45) = false.

Lemma undash_dashed n l : Forall no_dash l -> undash (dashed n l) = l.
Proof.
  intros H. revert n. induction H as [|c l Hc H IH]; intros n; [reflexivity|].
  unfold no_dash in Hc. destruct n; simpl in *; rewrite Hc, IH; reflexivity.
Qed.

Lemma b32_bits_spec : forall l : list bool, exists pad, (length pad < 5)%nat /\ Forall no_dash (b32_bits l) /\
  concat (map b32_undigit (b32_bits l)) = l ++ pad.
Proof.
  fix IH 1. intros [|a [|b [|c [|d [|e r]]]]].
  - exists []. repeat split; [simpl; lia|constructor].
  - exists [false; false; false; false]. splits; [simpl; lia|constructor; [|constructor]; destruct a; reflexivity|destruct a; reflexivity].
  - exists [false; false; false]. splits; [simpl; lia|constructor; [|constructor]; destruct a, b; reflexivity|destruct a, b; reflexivity].
  - exists [false; false]. splits; [simpl; lia|constructor; [|constructor]; destruct a, b, c; reflexivity|destruct a, b, c; reflexivity].
  - exists [false]. splits; [simpl; lia|constructor; [|constructor]; destruct a, b, c, d; reflexivity|destruct a, b, c, d; reflexivity].
  - destruct (IH r) as (pad & Hl & Hd & E). exists pad. splits; [exact Hl| |].
    + cbn [b32_bits]. constructor; [destruct a, b, c, d, e; reflexivity|exact Hd].
    + cbn [b32_bits map concat]. rewrite E. destruct a, b, c, d, e; reflexivity.
Qed.

Lemma text_decodes p : Forall (fun b => b < 256) p ->
  drop 4 (bits_bytes (concat (map b32_undigit (undash (principal_text p))))) = p.
Proof.
  intros H. unfold principal_text. destruct (b32_bits_spec (concat (map byte_bits (be32 (crc32 p) ++ p)))) as (pad & Hl & Hd & E).
  rewrite undash_dashed, E by exact Hd. rewrite bits_bytes_concat; [reflexivity| |lia].
  apply Forall_app. split; [|exact H]. unfold be32. repeat constructor; apply N.mod_lt; discriminate.
Qed.

(** Two principals with the same text are the same. *)
Lemma principal_text_inj p q : Forall (fun b => b < 256) p -> Forall (fun b => b < 256) q ->
  principal_text p = principal_text q -> p = q.
Proof. intros Hp Hq E. rewrite <- (text_decodes p Hp), <- (text_decodes q Hq), E. reflexivity. Qed.

(** Parsing accepts exactly the texts of principals. *)
Lemma principal_parse_text p : Forall (fun b => b < 256) p -> (length p <= 29)%nat -> principal_parse (principal_text p) = Some p.
Proof.
  intros H L. unfold principal_parse. rewrite text_decodes by exact H.
  rewrite bool_decide_eq_true_2 by reflexivity. apply Nat.leb_le in L. rewrite L. reflexivity.
Qed.
Lemma principal_parse_inv s p : principal_parse s = Some p -> s = principal_text p /\ (length p <= 29)%nat.
Proof.
  unfold principal_parse. intros H. destruct (_ && _) eqn:E; [|discriminate]. injection H as <-.
  apply andb_true_iff in E. destruct E as [E1 E2]. apply Nat.leb_le in E1. apply bool_decide_eq_true_1 in E2. auto.
Qed.

Lemma bits_bytes_small : forall l, Forall (fun b => b < 256) (bits_bytes l).
Proof.
  fix IH 1. intros [|a [|b [|c [|d [|e [|f [|g [|h r]]]]]]]]; try (constructor; fail).
  simpl. constructor; [|apply IH]. destruct a, b, c, d, e, f, g, h; vm_compute; reflexivity.
Qed.
Lemma principal_parse_small s p : principal_parse s = Some p -> Forall (fun b => b < 256) p.
Proof.
  unfold principal_parse. intros H. destruct (_ && _); [|discriminate]. injection H as <-.
  apply Forall_drop, bits_bytes_small.
Qed.
