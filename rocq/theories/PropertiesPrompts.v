(** C119-C124: the interactive dialogues and the commands of the command-line tool. *)
From Verif Require Import ProofsItems ProofsManage ProofsCore ProofsOwner ProofsMeta PropertiesMeta PropertiesManage.
From Verif Require Import Base ModelPrincipal ModelState ModelManagement ModelQueries ModelStep ModelCodec ModelCli ModelPrompts
  ProofsMicro Spec ProofsCore ProofsLock ProofsMeta ProofsPrincipal Scenario PropertiesManage PropertiesMeta PropertiesCli.

(** ** Vocabulary *)

(** White space around a line, and the text inside. *)
Definition white (c : Ascii.ascii) : Prop := Ascii.N_of_ascii c ∈ [9; 10; 11; 12; 13; 32].
Fixpoint blank (s : string) : Prop := match s with EmptyString => True | String c r => white c /\ blank r end.
Definition bare (t : string) : Prop :=
  (forall c r, t = String c r -> ~ white c) /\ (forall r c, t = r +:+ String c "" -> ~ white c).
Definition typed (line text : string) : Prop := exists p q, blank p /\ blank q /\ line = p +:+ (text +:+ q) /\ bare text.

(** One line is read; after the last one, nothing over and over. *)
Inductive reads_line : list string -> string -> list string -> Prop :=
| rl_line x t r : typed x t -> reads_line (x :: r) t r
| rl_end : reads_line [] "" [].

(** A question is answered yes or no; other answers are ignored. *)
Definition says (b : bool) (t : string) : Prop := lowercase t ∈ (if b then ["y"; "yes"]%string else ["n"; "no"]%string).
Inductive answered : list string -> bool -> list string -> Prop :=
| an_now x t b r : typed x t -> says b t -> answered (x :: r) b r
| an_later x t b r r' : typed x t -> ~ says true t -> ~ says false t -> answered r b r' -> answered (x :: r) b r'.

(** Numbers and base64 texts (RFC 4648, section 4). *)
Definition natural (s : string) (n : N) : Prop := (decimal s n \/ exists t, s = "+" +:+ t /\ decimal t n) /\ n < 2 ^ 64.
Definition integer (s : string) (z : Z) : Prop :=
  (exists n, (decimal s n \/ exists t, s = "+" +:+ t /\ decimal t n) /\ n < 2 ^ 63 /\ z = Z.of_N n) \/
  (exists t n, s = "-" +:+ t /\ decimal t n /\ n <= 2 ^ 63 /\ z = (- Z.of_N n)%Z).
Definition b64_alphabet : string := "ABCDEFGHIJKLMNOPQRSTUVWXYZabcdefghijklmnopqrstuvwxyz0123456789+/".
Definition b64_char (n : N) : Ascii.ascii := default Ascii.zero (String.get (N.to_nat n) b64_alphabet).
Fixpoint base64_text (b : bytes) : string :=
  match b with
  | [] => ""
  | [x] => String (b64_char (x / 4)) (String (b64_char (16 * (x mod 4))) "==")
  | [x; y] => String (b64_char (x / 4)) (String (b64_char (16 * (x mod 4) + y / 16)) (String (b64_char (4 * (y mod 16))) "="))
  | x :: y :: z :: r =>
      String (b64_char (x / 4)) (String (b64_char (16 * (x mod 4) + y / 16))
        (String (b64_char (4 * (y mod 16) + z / 64)) (String (b64_char (z mod 64)) (base64_text r))))
  end.

(** ** Lines *)

Lemma is_space_spec c : is_space c = true <-> white c.
Proof.
  unfold is_space, white. rewrite !elem_of_cons, elem_of_nil, orb_true_iff, andb_true_iff, N.eqb_eq, !N.leb_le. lia.
Qed.
Lemma is_space_not c : is_space c = false <-> ~ white c.
Proof. rewrite <- is_space_spec. destruct (is_space c); split; congruence. Qed.

Lemma app_assoc_s (a b c : string) : a +:+ (b +:+ c) = (a +:+ b) +:+ c.
Proof. induction a as [|x a IH]; [reflexivity|]. change (String x (a +:+ (b +:+ c)) = String x ((a +:+ b) +:+ c)). rewrite IH. reflexivity. Qed.
Lemma app_nil_s (a : string) : a +:+ "" = a.
Proof. induction a as [|x a IH]; [reflexivity|]. change (String x (a +:+ "") = String x a). rewrite IH. reflexivity. Qed.

Lemma trim_start_spec x : exists p, blank p /\ x = p +:+ trim_start x /\ forall c r, trim_start x = String c r -> ~ white c.
Proof.
  induction x as [|c x (p & B & E & N)].
  - exists ""%string. splits; [exact I|reflexivity|discriminate].
  - cbn [trim_start]. destruct (is_space c) eqn:S.
    + exists (String c p). splits; [split; [apply is_space_spec, S|exact B]| |exact N].
      change (String c x = String c (p +:+ trim_start x)). rewrite <- E. reflexivity.
    + exists ""%string. splits; [exact I|reflexivity|]. intros c' r [= <- <-]. apply is_space_not, S.
Qed.

Lemma snoc_inv a b c d : a +:+ String c "" = b +:+ String d "" -> a = b /\ c = d.
Proof.
  revert b. induction a as [|x a IH]; intros [|y b] H.
  - injection H. auto.
  - destruct b; discriminate H.
  - destruct a; discriminate H.
  - change (String x (a +:+ String c "") = String y (b +:+ String d "")) in H. injection H as -> H. destruct (IH _ H) as [-> ->]. auto.
Qed.

Lemma trim_end_first x : trim_end x = ""%string \/ exists c r r', x = String c r /\ trim_end x = String c r'.
Proof.
  destruct x as [|c r]; [auto|]. cbn [trim_end]. destruct (trim_end r); [destruct (is_space c); [auto|]|]; right; eauto.
Qed.

Lemma trim_end_spec x : exists q, blank q /\ x = trim_end x +:+ q /\ forall r c, trim_end x = r +:+ String c "" -> ~ white c.
Proof.
  induction x as [|c x (q & B & E & N)].
  - exists ""%string. splits; [exact I|reflexivity|]. intros [|] ?; discriminate.
  - cbn [trim_end]. destruct (trim_end x) as [|d t] eqn:T.
    + change (x = q) in E. subst q. destruct (is_space c) eqn:S.
      * exists (String c x). splits; [split; [apply is_space_spec, S|exact B]|reflexivity|]. intros [|] ?; discriminate.
      * exists x. splits; [exact B|reflexivity|]. intros r d H. change (String c "") with ("" +:+ String c "") in H.
        apply snoc_inv in H. destruct H as [_ <-]. apply is_space_not, S.
    + exists q. splits; [exact B| |].
      * change (String c x = String c (String d t +:+ q)). rewrite <- E. reflexivity.
      * intros [|e r] d' H; [discriminate H|]. change (String c (String d t) = String e (r +:+ String d' "")) in H. injection H as _ H.
        eapply N, H.
Qed.

Lemma trim_typed x : typed x (trim x).
Proof.
  unfold trim. destruct (trim_start_spec x) as (p & B & E & N). destruct (trim_end_spec (trim_start x)) as (q & B' & E' & N').
  exists p, q. splits; [exact B|exact B'|rewrite <- E'; exact E|]. split; [|exact N'].
  intros c r H. destruct (trim_end_first (trim_start x)) as [Z|(d & t & t' & X & Y)]; [congruence|]. rewrite H in Y. injection Y as -> _.
  eapply N, X.
Qed.

Lemma trim_start_blank p s : blank p -> trim_start (p +:+ s) = trim_start s.
Proof.
  induction p as [|c p IH]; [reflexivity|]. intros [W B]. change (String c p +:+ s) with (String c (p +:+ s)). cbn [trim_start].
  rewrite (proj2 (is_space_spec c) W). apply IH, B.
Qed.
Lemma trim_end_blank q : blank q -> trim_end q = ""%string.
Proof. induction q as [|c q IH]; [reflexivity|]. intros [W B]. cbn [trim_end]. rewrite (IH B), (proj2 (is_space_spec c) W). reflexivity. Qed.
Lemma trim_end_app t q : blank q -> trim_end (t +:+ q) = trim_end t.
Proof.
  intros B. induction t as [|c t IH]; [apply trim_end_blank, B|]. change (String c t +:+ q) with (String c (t +:+ q)). cbn [trim_end].
  rewrite IH. reflexivity.
Qed.
Lemma blank_last q : blank q -> q <> ""%string -> exists r c, q = r +:+ String c "" /\ white c.
Proof.
  intros B N. destruct (string_snoc q) as [->|(r & c & ->)]; [congruence|]. exists r, c. split; [reflexivity|].
  clear N. induction r as [|d r IH]; [exact (proj1 B)|]. apply IH. destruct B as [_ B]. exact B.
Qed.
Lemma typed_trim x t : typed x t -> trim x = t.
Proof.
  intros (p & q & B & B' & -> & N1 & N2). unfold trim. rewrite (trim_start_blank _ _ B).
  assert (E : trim_start (t +:+ q) = if decide (t = ""%string) then trim_start q else t +:+ q).
  { destruct t as [|c t]; [reflexivity|]. cbn. change (String c t +:+ q) with (String c (t +:+ q)). cbn [trim_start].
    rewrite (proj2 (is_space_not c)) by (eapply N1; reflexivity). reflexivity. }
  rewrite E. destruct (decide (t = ""%string)) as [->|T].
  - rewrite <- (app_nil_s q), (trim_start_blank q "" B'). reflexivity.
  - rewrite (trim_end_app _ _ B'). destruct (trim_end_spec t) as (q' & B'' & X & Y).
    destruct (decide (q' = ""%string)) as [->|Z]; [rewrite app_nil_s in X; congruence|].
    destruct (blank_last q' B'' Z) as (r & c & -> & W). destruct (N2 (trim_end t +:+ r) c); [|exact W]. rewrite <- app_assoc_s. exact X.
Qed.
Lemma typed_iff x t : typed x t <-> trim x = t.
Proof. split; [apply typed_trim|]. intros <-. apply trim_typed. Qed.

Lemma prompt_input_iff l t r : prompt_input l = (t, r) <-> reads_line l t r.
Proof.
  split.
  - destruct l as [|x l]; intros [= <- <-]; constructor. apply trim_typed.
  - intros [x t' r' T|]; [|reflexivity]. cbn. rewrite (typed_trim _ _ T). reflexivity.
Qed.

Lemma says_dec_true t : bool_decide (lowercase t = "y"%string) || bool_decide (lowercase t = "yes"%string) = true <-> says true t.
Proof. unfold says. rewrite orb_true_iff, !bool_decide_eq_true, !elem_of_cons, elem_of_nil. tauto. Qed.
Lemma says_dec_false t : bool_decide (lowercase t = "n"%string) || bool_decide (lowercase t = "no"%string) = true <-> says false t.
Proof. unfold says. rewrite orb_true_iff, !bool_decide_eq_true, !elem_of_cons, elem_of_nil. tauto. Qed.
Lemma says_one t : says true t -> ~ says false t.
Proof. unfold says. rewrite !elem_of_cons, !elem_of_nil. intros [->|[->|[]]] [E|[E|[]]]; discriminate E. Qed.

Lemma prompt_bool_iff l b r : prompt_bool l = Ended b r <-> answered l b r.
Proof.
  split.
  - revert b r. induction l as [|x l IH]; intros b r; [discriminate|]. cbn [prompt_bool].
    destruct (_ || _) eqn:A; [|destruct (bool_decide (lowercase (trim x) = "n"%string) || _) eqn:B].
    + intros [= <- <-]. eapply an_now; [apply trim_typed|]. apply says_dec_true, A.
    + intros [= <- <-]. eapply an_now; [apply trim_typed|]. apply says_dec_false, B.
    + intros H. eapply an_later; [apply trim_typed| | |apply IH, H].
      * rewrite <- says_dec_true, A. discriminate.
      * rewrite <- says_dec_false, B. discriminate.
  - induction 1 as [x t b r T S|x t b r r' T S1 S2 H IH]; cbn [prompt_bool]; rewrite (typed_trim _ _ T).
    + destruct b; [apply says_dec_true in S; rewrite S; reflexivity|]. pose proof S as S'. apply says_dec_false in S. rewrite S.
      destruct (bool_decide (lowercase t = "y"%string) || _) eqn:A; [|reflexivity]. apply says_dec_true in A. destruct (says_one _ A S').
    + rewrite <- says_dec_true in S1. rewrite <- says_dec_false in S2. apply not_true_is_false in S1, S2. rewrite S1, S2. exact IH.
Qed.

Lemma prompt_bool_not_aborted l : prompt_bool l <> Aborted.
Proof. induction l as [|x l IH]; [discriminate|]. cbn [prompt_bool]. destruct (_ || _); [discriminate|]. destruct (_ || _); [discriminate|exact IH]. Qed.
Lemma prompt_bool_forever l : prompt_bool l = Forever <-> forall x t, x ∈ l -> typed x t -> ~ says true t /\ ~ says false t.
Proof.
  induction l as [|x l IH]; [split; [|reflexivity]; intros _ x t H; apply elem_of_nil in H; destruct H|]. cbn [prompt_bool].
  destruct (_ || _) eqn:A; [|destruct (bool_decide (lowercase (trim x) = "n"%string) || _) eqn:B].
  - split; [discriminate|]. intros H. apply says_dec_true in A. destruct (H x (trim x)); [left|apply trim_typed|]. contradiction.
  - split; [discriminate|]. intros H. apply says_dec_false in B. destruct (H x (trim x)); [left|apply trim_typed|]. contradiction.
  - rewrite IH. split.
    + intros H y t Hy T. apply elem_of_cons in Hy. destruct Hy as [->|Hy]; [|eapply H; eauto].
      rewrite <- (typed_trim _ _ T), <- says_dec_true, <- says_dec_false, A, B. split; discriminate.
    + intros H y t Hy. apply H. right. exact Hy.
Qed.

Lemma prompt_bool_shorter l b r : prompt_bool l = Ended b r -> (length r < length l)%nat.
Proof.
  revert b r. induction l as [|x l IH]; intros b r; [discriminate|]. cbn [prompt_bool length].
  destruct (_ || _); [intros [= _ <-]; lia|]. destruct (_ || _); [intros [= _ <-]; lia|]. intros H. apply IH in H. lia.
Qed.
Lemma prompt_input_shorter l t r : prompt_input l = (t, r) -> (length r <= length l)%nat.
Proof. destruct l; intros [= _ <-]; cbn; lia. Qed.

(** ** C122: base64 *)

Lemma b64_digit_iff c n : b64_digit c = Some n <-> n < 64 /\ c = b64_char n.
Proof.
  split.
  - destruct c as [[] [] [] [] [] [] [] []]; vm_compute; intros [=]; subst; auto.
  - intros [L ->]. assert (F : forallb (fun k => bool_decide (b64_digit (b64_char (N.of_nat k)) = Some (N.of_nat k))) (seq 0 64) = true)
      by (vm_compute; reflexivity).
    rewrite forallb_forall in F. specialize (F (N.to_nat n)). rewrite N2Nat.id, bool_decide_eq_true in F. apply F, in_seq. lia.
Qed.
Lemma b64_char_digit n : n < 64 -> b64_digit (b64_char n) = Some n.
Proof. intros L. apply b64_digit_iff. auto. Qed.
Lemma b64_char_not_pad n : n < 64 -> b64_pad (b64_char n) = false.
Proof.
  intros L. assert (F : forallb (fun k => negb (b64_pad (b64_char (N.of_nat k)))) (seq 0 64) = true) by (vm_compute; reflexivity).
  rewrite forallb_forall in F. specialize (F (N.to_nat n)). rewrite N2Nat.id, negb_true_iff in F. apply F, in_seq. lia.
Qed.
Lemma b64_pad_iff c : b64_pad c = true -> c = (Ascii.ascii_of_N 61).
Proof. destruct c as [[] [] [] [] [] [] [] []]; vm_compute; congruence. Qed.

Lemma bytes3_ind (P : list N -> Prop) : P [] -> (forall x, P [x]) -> (forall x y, P [x; y]) -> (forall x y z r, P r -> P (x :: y :: z :: r)) ->
  forall b, P b.
Proof.
  intros H0 H1 H2 H3. fix IH 1. intros [|x [|y [|z r]]]; [exact H0|apply H1|apply H2|apply H3, IH].
Qed.
Lemma string4_ind (P : string -> Prop) : (forall s, (String.length s < 4)%nat -> P s) ->
  (forall a b c d r, P r -> P (String a (String b (String c (String d r))))) -> forall s, P s.
Proof.
  intros H0 H1. fix IH 1. intros [|a [|b [|c [|d r]]]]; [apply H0; cbn; lia..|apply H1, IH].
Qed.

Ltac divmod := zify; Z.to_euclidean_division_equations; lia.

Lemma b64_decode_text b : Forall (fun x => x < 256) b -> b64_decode (base64_text b) = Some b.
Proof.
  induction b as [|x|x y|x y z r IH] using bytes3_ind; intros F.
  - reflexivity.
  - apply Forall_cons in F. destruct F as [F _]. cbn [base64_text b64_decode].
    assert (x / 4 < 64 /\ 16 * (x mod 4) < 64) as [A B] by divmod. rewrite !b64_char_digit by assumption. cbn [b64_pad].
    change (b64_pad (Ascii.ascii_of_N 61)) with true. cbn [andb]. rewrite bool_decide_eq_true_2 by reflexivity. cbn [andb].
    replace (16 * (x mod 4) mod 16) with 0 by divmod. cbn [N.eqb]. do 2 f_equal. divmod.
  - apply Forall_cons in F. destruct F as [F1 F]. apply Forall_cons in F. destruct F as [F2 _]. cbn [base64_text b64_decode].
    assert (x / 4 < 64 /\ 16 * (x mod 4) + y / 16 < 64 /\ 4 * (y mod 16) < 64) as (A & B & C) by divmod.
    rewrite !b64_char_digit by assumption. rewrite b64_char_not_pad by assumption. change (b64_pad (Ascii.ascii_of_N 61)) with true.
    rewrite bool_decide_eq_true_2 by reflexivity. cbn [andb]. replace (4 * (y mod 16) mod 4) with 0 by divmod. cbn [N.eqb].
    do 2 f_equal; [divmod|]. f_equal. divmod.
  - apply Forall_cons in F. destruct F as [F1 F]. apply Forall_cons in F. destruct F as [F2 F]. apply Forall_cons in F. destruct F as [F3 F].
    cbn [base64_text b64_decode].
    assert (x / 4 < 64 /\ 16 * (x mod 4) + y / 16 < 64 /\ 4 * (y mod 16) + z / 64 < 64 /\ z mod 64 < 64) as (A & B & C & D) by divmod.
    rewrite !b64_char_digit, !b64_char_not_pad by assumption. rewrite (IH F). f_equal. repeat f_equal; divmod.
Qed.

Lemma b64_decode_inv s : forall b, b64_decode s = Some b -> s = base64_text b /\ Forall (fun x => x < 256) b.
Proof.
  induction s as [s L|a b c d r IH] using string4_ind; intros out H.
  - destruct s as [|? [|? [|? [|? ?]]]]; try discriminate H; [|cbn in L; lia]. injection H as <-. split; [reflexivity|constructor].
  - cbn [b64_decode] in H. destruct (b64_digit a) as [x|] eqn:A; [|discriminate]. destruct (b64_digit b) as [y|] eqn:B; [|discriminate].
    apply b64_digit_iff in A, B. destruct A as [LA ->], B as [LB ->]. destruct (b64_pad c) eqn:Pc.
    + destruct (b64_pad d) eqn:Pd; [|discriminate]. cbn [andb] in H. case_bool_decide as R; [|discriminate]. cbn [andb] in H.
      destruct (y mod 16 =? 0) eqn:Y; [|discriminate]. apply N.eqb_eq in Y. apply (inj Some) in H; subst out. subst r.
      apply b64_pad_iff in Pc, Pd. subst c d. cbn [base64_text]. split; [|repeat (apply Forall_cons_2; [divmod|]); apply Forall_nil_2].
      do 2 f_equal; [f_equal; divmod|]. f_equal. divmod.
    + destruct (b64_digit c) as [z|] eqn:C; [|discriminate]. apply b64_digit_iff in C. destruct C as [LC ->]. clear Pc.
      destruct (b64_pad d) eqn:Pd.
      * case_bool_decide as R; [|discriminate]. cbn [andb] in H. destruct (z mod 4 =? 0) eqn:Z; [|discriminate]. apply N.eqb_eq in Z.
        apply (inj Some) in H; subst out. subst r. apply b64_pad_iff in Pd. subst d. cbn [base64_text]. split; [|repeat (apply Forall_cons_2; [divmod|]); apply Forall_nil_2].
        f_equal; [f_equal; divmod|]. f_equal; [f_equal; divmod|]. f_equal. f_equal. divmod.
      * destruct (b64_digit d) as [w|] eqn:D; [|discriminate]. apply b64_digit_iff in D. destruct D as [LD ->].
        destruct (b64_decode r) as [l|] eqn:E; [|discriminate]. apply (inj Some) in H; subst out. destruct (IH l eq_refl) as [-> F].
        cbn [base64_text]. split; [|repeat (apply Forall_cons_2; [divmod|]); exact F].
        f_equal; [f_equal; divmod|]. f_equal; [f_equal; divmod|]. f_equal; [f_equal; divmod|]. f_equal. f_equal. divmod.
Qed.

(** The decoder accepts exactly the base64 texts of byte strings, and answers those bytes. *)
Theorem C122_base64_exact s b : b64_decode s = Some b <-> s = base64_text b /\ Forall (fun x => x < 256) b.
Proof. split; [apply b64_decode_inv|]. intros [-> F]. apply b64_decode_text, F. Qed.
Print Assumptions C122_base64_exact.

Theorem C122_base64_one_text b b' : Forall (fun x => x < 256) b -> Forall (fun x => x < 256) b' -> base64_text b = base64_text b' -> b = b'.
Proof. intros F F' E. apply b64_decode_text in F, F'. rewrite E in F. congruence. Qed.
Print Assumptions C122_base64_one_text.

Example C122_example :
  base64_text [77; 97; 110] = "TWFu"%string /\ base64_text [77; 97] = "TWE="%string /\ base64_text [77] = "TQ=="%string /\
  b64_decode "TQ==" = Some [77] /\ b64_decode "TR==" = None /\ b64_decode "TQ" = None /\ b64_decode "/+8A" = Some [255; 239; 0].
Proof. splits; vm_compute; reflexivity. Qed.

(** ** C119: the metadata typed are the metadata minted *)

(** The value meant by a choice of type and a text. *)
Inductive denotes : string -> string -> value -> Prop :=
| dn_text c t : c ∉ ["2"; "3"; "4"]%string -> denotes c t (VText t)
| dn_nat t n : natural t n -> denotes "2" t (VNat n)
| dn_int t z : integer t z -> denotes "3" t (VInt z)
| dn_blob b : Forall (fun x => x < 256) b -> denotes "4" (base64_text b) (VBlob b).

(** A dialogue: its lines, the entries it is about, and the lines left over. *)
Inductive entry_lines : list string -> string -> value -> list string -> Prop :=
| el_entry l k l1 c l2 t l3 v : reads_line l k l1 -> k <> ""%string -> reads_line l1 c l2 -> reads_line l2 t l3 -> denotes c t v ->
    entry_lines l k v l3.
Inductive dialogue : list string -> list (string * value) -> list string -> Prop :=
| dl_stop l r : reads_line l "" r -> dialogue l [] r
| dl_last l k v l3 r : entry_lines l k v l3 -> answered l3 false r -> dialogue l [(k, v)] r
| dl_more l k v l3 l4 es r : entry_lines l k v l3 -> answered l3 true l4 -> dialogue l4 es r -> dialogue l ((k, v) :: es) r.

Lemma parse_u64_natural s n : parse_u64 s = Some n <-> natural s n.
Proof.
  unfold parse_u64, natural. destruct s as [|c r].
  { cbn. split; [discriminate|]. intros [[D|(t & [=] & _)] _]. apply number_decimal in D. discriminate. }
  destruct (Ascii.N_of_ascii c =? 43) eqn:P.
  - apply N.eqb_eq in P. assert (c = Ascii.ascii_of_N 43) as -> by (rewrite <- (Ascii.ascii_N_embedding c), P; reflexivity).
    split.
    + destruct (number r) as [m|] eqn:E; [|discriminate]. destruct (m <? two64) eqn:L; [|discriminate]. intros [= ->].
      apply N.ltb_lt in L. split; [right; exists r; split; [reflexivity|apply number_decimal, E]|exact L].
    + intros [[D|(t & X & D)] L].
      * apply decimal_first in D. destruct D as (c & t & [= <- _] & B). vm_compute in B. destruct B. congruence.
      * injection X as <-. apply number_decimal in D. rewrite D. rewrite (proj2 (N.ltb_lt n two64)) by exact L. reflexivity.
  - split.
    + destruct (number _) as [m|] eqn:E; [|discriminate]. destruct (m <? two64) eqn:L; [|discriminate]. intros [= ->].
      apply N.ltb_lt in L. split; [left; apply number_decimal, E|exact L].
    + intros [[D|(t & X & D)] L].
      * apply number_decimal in D. rewrite D. rewrite (proj2 (N.ltb_lt n two64)) by exact L. reflexivity.
      * injection X as -> _. vm_compute in P. discriminate.
Qed.

Lemma parse_i64_integer s z : parse_i64 s = Some z <-> integer s z.
Proof.
  unfold parse_i64, integer. destruct s as [|c r].
  { split; [discriminate|]. intros [(n & [D|(t & [=] & _)] & _)|(t & n & [=] & _)]. apply number_decimal in D. discriminate. }
  destruct (Ascii.N_of_ascii c =? 45) eqn:M.
  - apply N.eqb_eq in M. assert (c = Ascii.ascii_of_N 45) as -> by (rewrite <- (Ascii.ascii_N_embedding c), M; reflexivity).
    split.
    + destruct (number r) as [n|] eqn:E; [|discriminate]. destruct (n <=? _) eqn:L; [|discriminate]. intros [= <-].
      apply N.leb_le in L. right. exists r, n. splits; [reflexivity|apply number_decimal, E|exact L|reflexivity].
    + intros [(n & [D|(t & X & D)] & L & ->)|(t & n & X & D & L & ->)].
      * apply decimal_first in D. destruct D as (c & t & [= <- _] & B). vm_compute in B. destruct B. congruence.
      * discriminate X.
      * injection X as <-. apply number_decimal in D. rewrite D. rewrite (proj2 (N.leb_le n 9223372036854775808)) by exact L. reflexivity.
  - destruct (Ascii.N_of_ascii c =? 43) eqn:P.
    + apply N.eqb_eq in P. assert (c = Ascii.ascii_of_N 43) as -> by (rewrite <- (Ascii.ascii_N_embedding c), P; reflexivity).
      split.
      * destruct (number r) as [n|] eqn:E; [|discriminate]. destruct (n <? _) eqn:L; [|discriminate]. intros [= <-].
        apply N.ltb_lt in L. left. exists n. splits; [right; exists r; split; [reflexivity|apply number_decimal, E]|exact L|reflexivity].
      * intros [(n & [D|(t & X & D)] & L & ->)|(t & n & X & D & L & ->)].
        -- apply decimal_first in D. destruct D as (c & t & [= <- _] & B). vm_compute in B. destruct B. congruence.
        -- injection X as <-. apply number_decimal in D. rewrite D. rewrite (proj2 (N.ltb_lt n 9223372036854775808)) by exact L. reflexivity.
        -- discriminate X.
    + split.
      * destruct (number _) as [n|] eqn:E; [|discriminate]. destruct (n <? _) eqn:L; [|discriminate]. intros [= <-].
        apply N.ltb_lt in L. left. exists n. splits; [left; apply number_decimal, E|exact L|reflexivity].
      * intros [(n & [D|(t & X & D)] & L & ->)|(t & n & X & D & L & ->)].
        -- apply number_decimal in D. rewrite D. rewrite (proj2 (N.ltb_lt n 9223372036854775808)) by exact L. reflexivity.
        -- injection X as -> _. vm_compute in P. discriminate.
        -- injection X as -> _. vm_compute in M. discriminate.
Qed.

Lemma entry_value_denotes c t v : entry_value c t = Some v <-> denotes c t v.
Proof.
  unfold entry_value. split.
  - repeat case_bool_decide; subst; intros HV.
    + injection HV as <-. constructor. rewrite !not_elem_of_cons. splits; try discriminate. apply not_elem_of_nil.
    + destruct (parse_u64 t) eqn:E; [|discriminate]. injection HV as <-. constructor. apply parse_u64_natural, E.
    + destruct (parse_i64 t) eqn:E; [|discriminate]. injection HV as <-. constructor. apply parse_i64_integer, E.
    + destruct (b64_decode t) eqn:E; [|discriminate]. injection HV as <-. apply C122_base64_exact in E. destruct E as [-> F].
      constructor. exact F.
    + injection HV as <-. constructor. rewrite !not_elem_of_cons. splits; try assumption. apply not_elem_of_nil.
  - intros [c' t' N|t' n H|t' z H|b F].
    + rewrite !not_elem_of_cons in N. destruct N as (N2 & N3 & N4 & _). repeat case_bool_decide; congruence.
    + cbn. apply parse_u64_natural in H. rewrite H. reflexivity.
    + cbn. apply parse_i64_integer in H. rewrite H. reflexivity.
    + cbn. rewrite b64_decode_text by exact F. reflexivity.
Qed.

Lemma entry_lines_iff l k v l3 :
  entry_lines l k v l3 <->
  k <> ""%string /\ exists l1 c l2 t, prompt_input l = (k, l1) /\ prompt_input l1 = (c, l2) /\ prompt_input l2 = (t, l3) /\
    entry_value c t = Some v.
Proof.
  split.
  - intros [l' k' l1 c l2 t l3' v' R1 N R2 R3 D]. split; [exact N|]. exists l1, c, l2, t.
    rewrite !prompt_input_iff, entry_value_denotes. auto.
  - intros (N & l1 & c & l2 & t & R1 & R2 & R3 & D). apply prompt_input_iff in R1, R2, R3. apply entry_value_denotes in D.
    econstructor; eauto.
Qed.

Lemma entry_lines_shorter l k v l3 : entry_lines l k v l3 -> (length l3 < length l)%nat.
Proof.
  intros H. apply entry_lines_iff in H. destruct H as (N & l1 & c & l2 & t & R1 & R2 & R3 & _).
  apply prompt_input_shorter in R2, R3. destruct l as [|x l]; [injection R1 as <- <-; congruence|]. injection R1 as _ <-. cbn. lia.
Qed.

(** The loop never runs out of rounds. *)
Lemma entries_fuel n : forall m l acc, (length l < n)%nat -> (length l < m)%nat -> entries_loop n l acc = entries_loop m l acc.
Proof.
  induction n as [|n IH]; intros [|m] l acc Ln Lm; try lia. cbn [entries_loop].
  destruct (prompt_input l) as [k l1] eqn:R1. case_bool_decide as K; [reflexivity|].
  destruct (prompt_input l1) as [c l2] eqn:R2. destruct (prompt_input l2) as [t l3] eqn:R3.
  destruct (entry_value c t) as [v|] eqn:V; [|reflexivity]. destruct (prompt_bool l3) as [[] l4| |] eqn:A; try reflexivity.
  apply prompt_bool_shorter in A. apply prompt_input_shorter in R1, R2, R3. apply IH; lia.
Qed.

Lemma entries_dialogue n : forall l acc out r, (length l < n)%nat ->
  entries_loop n l acc = Ended out r <-> exists es, out = acc ++ es /\ dialogue l es r.
Proof.
  induction n as [|n IH]; intros l acc out r L; [lia|]. cbn [entries_loop].
  destruct (prompt_input l) as [k l1] eqn:R1. case_bool_decide as K.
  - subst k. split.
    + intros [= <- <-]. exists []. split; [rewrite app_nil_r; reflexivity|]. constructor. apply prompt_input_iff, R1.
    + intros (es & -> & D). inversion D as [l' r' R|l' k v l3 r' H _|l' k v l3 l4 es' r' H _ _]; subst.
      * apply prompt_input_iff in R. rewrite R1 in R. injection R as ->. rewrite app_nil_r. reflexivity.
      * apply entry_lines_iff in H. destruct H as (N & ? & ? & ? & ? & R & _). congruence.
      * apply entry_lines_iff in H. destruct H as (N & ? & ? & ? & ? & R & _). congruence.
  - destruct (prompt_input l1) as [c l2] eqn:R2. destruct (prompt_input l2) as [t l3] eqn:R3.
    assert (X : forall k' v' l3', entry_lines l k' v' l3' -> k' = k /\ l3' = l3 /\ entry_value c t = Some v').
    { intros k' v' l3' H. apply entry_lines_iff in H. destruct H as (_ & ? & ? & ? & ? & A1 & A2 & A3 & A4).
      rewrite R1 in A1. injection A1 as -> ->. rewrite R2 in A2. injection A2 as -> ->. rewrite R3 in A3. injection A3 as -> ->. auto. }
    destruct (entry_value c t) as [v|] eqn:V.
    + assert (E : entry_lines l k v l3) by (apply entry_lines_iff; split; [exact K|]; exists l1, c, l2, t; auto).
      destruct (prompt_bool l3) as [[] l4| |] eqn:A.
      * rewrite (IH l4). 2:{ apply prompt_bool_shorter in A. apply entry_lines_shorter in E. lia. }
        pose proof A as A'. apply prompt_bool_iff in A'. split.
        -- intros (es & -> & D). exists ((k, v) :: es). split; [rewrite <- app_assoc; reflexivity|]. econstructor; eauto.
        -- intros (es & -> & D). inversion D as [l' r' R|l' k' v' l3' r' H B|l' k' v' l3' l4' es' r' H B D']; subst.
           ++ apply prompt_input_iff in R. congruence.
           ++ destruct (X _ _ _ H) as (-> & -> & [= <-]). apply prompt_bool_iff in B. congruence.
           ++ destruct (X _ _ _ H) as (-> & -> & [= <-]). apply prompt_bool_iff in B. rewrite A in B. injection B as <-.
              exists es'. rewrite <- app_assoc. auto.
      * pose proof A as A'. apply prompt_bool_iff in A'. split.
        -- intros [= <- <-]. exists [(k, v)]. split; [reflexivity|]. econstructor; eauto.
        -- intros (es & -> & D). inversion D as [l' r' R|l' k' v' l3' r' H B|l' k' v' l3' l4' es' r' H B D']; subst.
           ++ apply prompt_input_iff in R. congruence.
           ++ destruct (X _ _ _ H) as (-> & -> & [= <-]). apply prompt_bool_iff in B. rewrite A in B. injection B as <-. reflexivity.
           ++ destruct (X _ _ _ H) as (-> & -> & [= <-]). apply prompt_bool_iff in B. congruence.
      * destruct (prompt_bool_not_aborted _ A).
      * split; [discriminate|]. intros (es & -> & D).
        inversion D as [l' r' R|l' k' v' l3' r' H B|l' k' v' l3' l4' es' r' H B D']; subst.
        -- apply prompt_input_iff in R. congruence.
        -- destruct (X _ _ _ H) as (-> & -> & _). apply prompt_bool_iff in B. congruence.
        -- destruct (X _ _ _ H) as (-> & -> & _). apply prompt_bool_iff in B. congruence.
    + split; [discriminate|]. intros (es & -> & D).
      inversion D as [l' r' R|l' k' v' l3' r' H B|l' k' v' l3' l4' es' r' H B D']; subst.
      * apply prompt_input_iff in R. congruence.
      * destruct (X _ _ _ H) as (_ & _ & Y). discriminate Y.
      * destruct (X _ _ _ H) as (_ & _ & Y). discriminate Y.
Qed.

(** The interactive mode yields exactly the entries the lines are about, in their order. *)
Theorem C119_dialogue l es r : interactive_entries l = Ended es r <-> dialogue l es r.
Proof.
  unfold interactive_entries. rewrite entries_dialogue by lia. split; [intros (es' & -> & D); exact D|]. intros D. exists es. auto.
Qed.
Print Assumptions C119_dialogue.

(** What somebody types to enter a list of entries, one line per answer, is understood: every entry arrives with its value.
    (Texts without white space at either end; others are trimmed, see below.) *)
Definition type_entry (x : string * (string * string)) (last : bool) : list string :=
  [fst x; fst (snd x); snd (snd x); if last then "n"%string else "y"%string].
Fixpoint type_entries (l : list (string * (string * string))) : list string :=
  match l with [] => [""%string] | [x] => type_entry x true | x :: r => type_entry x false ++ type_entries r end.

Lemma bare_typed t : bare t -> typed t t.
Proof. intros B. exists ""%string, ""%string. splits; [exact I|exact I|rewrite app_nil_s; reflexivity|exact B]. Qed.

Theorem C119_entered_partial l vs rest :
  Forall2 (fun x v => bare (fst x) /\ fst x <> ""%string /\ bare (fst (snd x)) /\ bare (snd (snd x)) /\
             denotes (fst (snd x)) (snd (snd x)) v) l vs ->
  interactive_entries (type_entries l ++ rest) = Ended (zip (map fst l) vs) rest.
Proof.
  intros F. apply C119_dialogue. induction F as [|x v l vs (B1 & N & B2 & B3 & D) F IH].
  - cbn. constructor. constructor. apply bare_typed. split; [discriminate|]. intros [|] ?; discriminate.
  - assert (E : forall y tl, entry_lines (fst x :: fst (snd x) :: snd (snd x) :: y :: tl) (fst x) v (y :: tl)).
    { intros y tl. econstructor; [constructor; apply bare_typed, B1|exact N|constructor; apply bare_typed, B2|
        constructor; apply bare_typed, B3|exact D]. }
    assert (Y : bare "y" /\ bare "n").
    { split; split; [intros c r [= <- _]|intros [|? [|]] c; [intros [= <-]|discriminate|discriminate]|
        intros c r [= <- _]|intros [|? [|]] c; [intros [= <-]|discriminate|discriminate]];
        apply is_space_not; reflexivity. }
    destruct l as [|x' l'].
    + inversion F; subst. cbn. econstructor; [apply E|]. eapply an_now; [apply bare_typed, Y|]. unfold says. cbn. left.
    + cbn [type_entries type_entry map zip]. econstructor; [apply E| |exact IH]. eapply an_now; [apply bare_typed, Y|]. unfold says. cbn. left.
Qed.
Print Assumptions C119_entered_partial.

(** White space at the ends of a text is lost. *)
Theorem C119_spaces_refuted :
  ~ (forall k t rest, bare k -> k <> ""%string -> interactive_entries ([k; "1"%string; t; "n"%string] ++ rest) = Ended [(k, VText t)] rest).
Proof.
  intros H. specialize (H "k"%string " x"%string []). assert (X : " x"%string = "x"%string); [|discriminate X].
  assert (E : interactive_entries (["k"; "1"; " x"; "n"]%string ++ []) = Ended [("k"%string, VText "x")] []) by (vm_compute; reflexivity).
  rewrite E in H. assert (B : bare "k").
  { split; [intros c r [= <- _]|intros [|? [|]] c; [intros [= <-]|discriminate|discriminate]]; apply is_space_not; reflexivity. }
  specialize (H B ltac:(discriminate)). congruence.
Qed.
Print Assumptions C119_spaces_refuted.

(** A refused number loses everything typed before: the command ends with an error. *)
Example C119_example :
  interactive_entries ["color"; "1"; "deep blue"; "maybe"; " YES "; "year"; "2"; "1984"; "y"; "d"; "3"; "-7"; "y"; "b"; "4"; "TWE="; "no"; "more"]%string =
    Ended [("color"%string, VText "deep blue"); ("year"%string, VNat 1984); ("d"%string, VInt (-7)); ("b"%string, VBlob [77; 97])] ["more"%string] /\
  interactive_entries ["color"; "1"; "blue"; "y"; "year"; "2"; "198O"; "n"]%string = Aborted /\
  interactive_entries (type_entries [("a"%string, ("9"%string, "5"%string))]) = Ended [("a"%string, VText "5")] [].
Proof. splits; vm_compute; reflexivity. Qed.

(** ** C120: the dialogue ends *)

(** If the input ends at a question to be answered by yes or no, the question is repeated forever. *)
Theorem C120_ends_refuted : ~ (forall l, interactive_entries l <> Forever).
Proof. intros H. apply (H ["k"; "1"; "v"]%string). vm_compute. reflexivity. Qed.
Print Assumptions C120_ends_refuted.

(** That is the only way: the dialogue goes on forever exactly if, after some entries, none of the remaining lines
    answers the question whether there are more. *)
Definition says_nothing (l : list string) : Prop := forall x t, x ∈ l -> typed x t -> ~ says true t /\ ~ says false t.
Inductive stuck : list string -> Prop :=
| st_here l k v l3 : entry_lines l k v l3 -> says_nothing l3 -> stuck l
| st_later l k v l3 l4 : entry_lines l k v l3 -> answered l3 true l4 -> stuck l4 -> stuck l.

Lemma entries_stuck n : forall l acc, (length l < n)%nat -> entries_loop n l acc = Forever <-> stuck l.
Proof.
  induction n as [|n IH]; intros l acc L; [lia|]. cbn [entries_loop].
  destruct (prompt_input l) as [k l1] eqn:R1. case_bool_decide as K.
  - subst k. split; [discriminate|]. intros S0; inversion S0 as [l' k v l3 H _|l' k v l3 l4 H _ _]; subst; apply entry_lines_iff in H;
      destruct H as (N & ? & ? & ? & ? & R & _); congruence.
  - destruct (prompt_input l1) as [c l2] eqn:R2. destruct (prompt_input l2) as [t l3] eqn:R3.
    assert (X : forall k' v' l3', entry_lines l k' v' l3' -> k' = k /\ l3' = l3 /\ entry_value c t = Some v').
    { intros k' v' l3' H. apply entry_lines_iff in H. destruct H as (_ & ? & ? & ? & ? & A1 & A2 & A3 & A4).
      rewrite R1 in A1. injection A1 as -> ->. rewrite R2 in A2. injection A2 as -> ->. rewrite R3 in A3. injection A3 as -> ->. auto. }
    destruct (entry_value c t) as [v|] eqn:V.
    + assert (E : entry_lines l k v l3) by (apply entry_lines_iff; split; [exact K|]; exists l1, c, l2, t; auto).
      destruct (prompt_bool l3) as [[] l4| |] eqn:A.
      * rewrite (IH l4). 2:{ apply prompt_bool_shorter in A. apply entry_lines_shorter in E. lia. }
        split; [intros S; eapply st_later; [exact E|apply prompt_bool_iff, A|exact S]|].
        intros S0; inversion S0 as [l' k' v' l3' H B|l' k' v' l3' l4' H B S]; subst; destruct (X _ _ _ H) as (-> & -> & _).
        -- apply (proj2 (prompt_bool_forever l3)) in B. congruence.
        -- apply prompt_bool_iff in B. rewrite A in B. injection B as <-. exact S.
      * split; [discriminate|].
        intros S0; inversion S0 as [l' k' v' l3' H B|l' k' v' l3' l4' H B S]; subst; destruct (X _ _ _ H) as (-> & -> & _).
        -- apply (proj2 (prompt_bool_forever l3)) in B. congruence.
        -- apply prompt_bool_iff in B. congruence.
      * destruct (prompt_bool_not_aborted _ A).
      * split; [intros _; eapply st_here; [exact E|exact (proj1 (prompt_bool_forever l3) A)]|reflexivity].
    + split; [discriminate|].
      intros S0; inversion S0 as [l' k' v' l3' H B|l' k' v' l3' l4' H B S]; subst; destruct (X _ _ _ H) as (_ & _ & Y); discriminate Y.
Qed.

Theorem C120_forever_partial l : interactive_entries l = Forever <-> stuck l.
Proof. apply entries_stuck. lia. Qed.
Print Assumptions C120_forever_partial.

Example C120_example : stuck ["a"; "1"; "b"; "y"; "c"; "1"; "d"; "?"]%string /\ interactive_entries ["a"; "1"; "b"; "y"]%string = Ended [("a"%string, VText "b")] [].
Proof. split; [apply C120_forever_partial|]; vm_compute; reflexivity. Qed.

(** ** C121: the document created is the document described *)

(** The display type chosen: for numbers one of four or none, for texts any text or none. *)
Inductive displays : bool -> list string -> option string -> list string -> Prop :=
| dp_skip b l r : reads_line l "" r -> displays b l None r
| dp_number l t d r : reads_line l t r ->
    (t, d) ∈ [("1", Some "number"); ("2", Some "boost_number"); ("3", Some "boost_percentage"); ("4", Some "date"); ("5", None)]%string ->
    displays true l d r
| dp_number_again l t l1 d r : reads_line l t l1 -> t ∉ [""; "1"; "2"; "3"; "4"; "5"]%string -> displays true l1 d r -> displays true l d r
| dp_text_none l r : reads_line l "1" r -> displays false l None r
| dp_text_empty l l1 r : reads_line l "2" l1 -> reads_line l1 "" r -> displays false l None r
| dp_text_custom l l1 c r : reads_line l "2" l1 -> reads_line l1 c r -> c <> ""%string -> displays false l (Some c) r
| dp_text_again l t l1 d r : reads_line l t l1 -> t ∉ [""; "1"; "2"]%string -> displays false l1 d r -> displays false l d r.

(** The value of an attribute: a text that is a number becomes that number; [json_value] tells what becomes of numbers that
    are not finite. *)
Inductive json_value (fparse : string -> option float) : string -> json -> bool -> Prop :=
| jv_number t n : fparse t = Some (Finite n) -> json_value fparse t (JNum n) true
| jv_null t : fparse t = Some NonFinite -> json_value fparse t JNull true
| jv_text t : fparse t = None -> json_value fparse t (JStr t) false.

Inductive attribute_lines (fparse : string -> option float) : list string -> string * json * option string -> list string -> Prop :=
| al_one l k l1 t l2 j b d l3 : reads_line l k l1 -> k <> ""%string -> reads_line l1 t l2 -> json_value fparse t j b -> displays b l2 d l3 ->
    attribute_lines fparse l (k, j, d) l3.
Inductive attributes (fparse : string -> option float) : list string -> list (string * json * option string) -> list string -> Prop :=
| at_stop l r : reads_line l "" r -> attributes fparse l [] r
| at_last l a l3 r : attribute_lines fparse l a l3 -> answered l3 false r -> attributes fparse l [a] r
| at_more l a l3 l4 es r : attribute_lines fparse l a l3 -> answered l3 true l4 -> attributes fparse l4 es r -> attributes fparse l (a :: es) r.

Lemma reads_line_det l t r t' r' : reads_line l t r -> reads_line l t' r' -> t = t' /\ r = r'.
Proof. rewrite <- !prompt_input_iff. intros -> [= <- <-]. auto. Qed.

Lemma in_options {A} (x : A) l : x ∈ l <-> In x l.
Proof. apply elem_of_list_In. Qed.

Lemma display_number_line x l : display_number (x :: l) =
  if bool_decide (trim x = "1"%string) then (Some "number"%string, l)
  else if bool_decide (trim x = "2"%string) then (Some "boost_number"%string, l)
  else if bool_decide (trim x = "3"%string) then (Some "boost_percentage"%string, l)
  else if bool_decide (trim x = "4"%string) then (Some "date"%string, l)
  else if bool_decide (trim x = "5"%string) || bool_decide (trim x = ""%string) then (None, l)
  else display_number l.
Proof. reflexivity. Qed.

Lemma display_number_read l t r : reads_line l t r -> display_number l =
  if bool_decide (t = "1"%string) then (Some "number"%string, r)
  else if bool_decide (t = "2"%string) then (Some "boost_number"%string, r)
  else if bool_decide (t = "3"%string) then (Some "boost_percentage"%string, r)
  else if bool_decide (t = "4"%string) then (Some "date"%string, r)
  else if bool_decide (t = "5"%string) || bool_decide (t = ""%string) then (None, r)
  else display_number r.
Proof. intros [x t' r' T|]; [|reflexivity]. rewrite display_number_line, (typed_trim _ _ T). reflexivity. Qed.

Lemma display_text_read l t r : reads_line l t r -> display_text l =
  if bool_decide (t = "1"%string) || bool_decide (t = ""%string) then (None, r)
  else if bool_decide (t = "2"%string) then prompt_optional r
  else display_text r.
Proof. intros [x t' r' T|]; [|reflexivity]. cbn [display_text]. rewrite (typed_trim _ _ T). reflexivity. Qed.

Lemma prompt_optional_read l t r : reads_line l t r -> prompt_optional l = (if bool_decide (t = ""%string) then None else Some t, r).
Proof. intros H. apply prompt_input_iff in H. unfold prompt_optional. rewrite H. reflexivity. Qed.

Lemma display_number_iff l d r : display_number l = (d, r) <-> displays true l d r.
Proof.
  split.
  - revert d r. induction l as [|x l IH]; intros d r.
    + intros [= <- <-]. constructor. constructor.
    + rewrite display_number_line. pose proof (rl_line x (trim x) l (trim_typed x)) as R. generalize dependent (trim x). intros t R.
      destruct (decide (t = ""%string)) as [->|N0]; [intros [= <- <-]; apply dp_skip; exact R|].
      repeat case_bool_decide; cbn [orb]; try congruence; try (intros [= <- <-]);
        try (eapply dp_number; [exact R|subst t; rewrite in_options; cbn; tauto]).
      intros E. eapply dp_number_again; [exact R| |apply IH, E]. rewrite in_options. cbn. intuition congruence.
  - remember true as b eqn:Hb. intros D.
    induction D as [b l r R|l t d r R O|l t l1 d r R O D IH|l r R|l l1 r R R'|l l1 c r R R' N|l t l1 d r R O D IH]; try discriminate Hb.
    + rewrite (display_number_read _ _ _ R). reflexivity.
    + rewrite (display_number_read _ _ _ R). rewrite in_options in O. cbn in O.
      destruct O as [[= <- <-]|[[= <- <-]|[[= <- <-]|[[= <- <-]|[[= <- <-]|[]]]]]]; reflexivity.
    + rewrite (display_number_read _ _ _ R), (IH Hb). rewrite in_options in O. cbn in O.
      repeat rewrite bool_decide_eq_false_2 by intuition congruence. reflexivity.
Qed.

Lemma display_text_iff l d r : display_text l = (d, r) <-> displays false l d r.
Proof.
  split.
  - revert d r. induction l as [|x l IH]; intros d r.
    + intros [= <- <-]. constructor. constructor.
    + pose proof (rl_line x (trim x) l (trim_typed x)) as R. rewrite (display_text_read _ _ _ R). generalize dependent (trim x). intros t R.
      destruct (decide (t = ""%string)) as [->|N0]; [intros [= <- <-]; apply dp_skip; exact R|].
      repeat case_bool_decide; cbn [orb]; try congruence; subst.
      * intros [= <- <-]. apply dp_text_none. exact R.
      * destruct (prompt_input l) as [c r'] eqn:P. apply prompt_input_iff in P. rewrite (prompt_optional_read _ _ _ P).
        case_bool_decide; intros [= <- <-]; [subst; eapply dp_text_empty|eapply dp_text_custom]; eauto.
      * intros E. eapply dp_text_again; [exact R| |apply IH, E]. rewrite in_options. cbn. intuition congruence.
  - remember false as b eqn:Hb. intros D.
    induction D as [b l r R|l t d r R O|l t l1 d r R O D IH|l r R|l l1 r R R'|l l1 c r R R' N|l t l1 d r R O D IH]; try discriminate Hb.
    + rewrite (display_text_read _ _ _ R). reflexivity.
    + rewrite (display_text_read _ _ _ R). reflexivity.
    + rewrite (display_text_read _ _ _ R). cbn. rewrite (prompt_optional_read _ _ _ R'). reflexivity.
    + rewrite (display_text_read _ _ _ R). cbn. rewrite (prompt_optional_read _ _ _ R'), (bool_decide_eq_false_2 (c = _)) by exact N. reflexivity.
    + rewrite (display_text_read _ _ _ R), (IH Hb). rewrite in_options in O. cbn in O.
      repeat rewrite bool_decide_eq_false_2 by intuition congruence. reflexivity.
Qed.

Lemma displays_shorter b l d r : displays b l d r -> (length r <= length l)%nat.
Proof.
  assert (R : forall l t r, reads_line l t r -> (length r <= length l)%nat) by (intros ? ? ? []; cbn; lia).
  induction 1; repeat match goal with H : reads_line _ _ _ |- _ => apply R in H end; lia.
Qed.

(** What the model reads for one attribute. *)
Lemma attribute_read fparse l k l1 t l2 :
  prompt_input l = (k, l1) -> k <> ""%string -> prompt_input l1 = (t, l2) ->
  forall v d, match fparse t with Some f => (json_float f, display_number l2) | None => (JStr t, display_text l2) end = (v, d) ->
  forall a l3, attribute_lines fparse l a l3 <-> a = (k, v, fst d) /\ l3 = snd d.
Proof.
  intros R1 K R2 v d E a l3. apply prompt_input_iff in R1, R2. split.
  - intros AL. inversion AL as [l' k' l1' t' l2' j b d' l3' A1 A2 A3 A4 A5]; subst. destruct (reads_line_det _ _ _ _ _ R1 A1) as [<- <-].
    destruct (reads_line_det _ _ _ _ _ R2 A3) as [<- <-]. inversion A4 as [t0 n F|t0 F|t0 F]; subst; rewrite F in E; injection E as <- <-.
    + apply display_number_iff in A5. rewrite A5. auto.
    + apply display_number_iff in A5. rewrite A5. auto.
    + apply display_text_iff in A5. rewrite A5. auto.
  - intros [-> ->]. destruct (fparse t) as [[n|]|] eqn:F; injection E as <- <-; (econstructor; [exact R1|exact K|exact R2| |]).
    + apply jv_number. exact F.
    + apply display_number_iff. apply surjective_pairing.
    + apply jv_null. exact F.
    + apply display_number_iff. apply surjective_pairing.
    + apply jv_text. exact F.
    + apply display_text_iff. apply surjective_pairing.
Qed.

Lemma attribute_shorter fparse l a l3 : attribute_lines fparse l a l3 -> (length l3 < length l)%nat.
Proof.
  intros [l' k l1 t l2 j b d l3' A1 A2 A3 A4 A5]. apply displays_shorter in A5.
  apply prompt_input_iff, prompt_input_shorter in A3. inversion A1; subst; [cbn; lia|congruence].
Qed.

Lemma attributes_iff fparse n : forall l acc out r, (length l < n)%nat ->
  attributes_loop fparse n l acc = Ended out r <-> exists es, out = acc ++ es /\ attributes fparse l es r.
Proof.
  induction n as [|n IH]; intros l acc out r L; [lia|]. cbn [attributes_loop].
  destruct (prompt_input l) as [k l1] eqn:R1. case_bool_decide as K.
  - subst k. pose proof R1 as R0. apply prompt_input_iff in R1.
    assert (X : forall a l3, ~ attribute_lines fparse l a l3).
    { intros a l3 H. inversion H as [l' k' l1' t' l2' j b d' l3' A1 A2 A3 A4 A5]; subst. destruct (reads_line_det _ _ _ _ _ R1 A1). congruence. }
    split.
    + intros [= <- <-]. exists []. split; [rewrite app_nil_r; reflexivity|]. constructor. exact R1.
    + intros (es & -> & D). inversion D; subst; [|exfalso; eapply X; eauto..].
      match goal with H : reads_line l "" r |- _ => destruct (reads_line_det _ _ _ _ _ R1 H) as [_ <-] end. rewrite app_nil_r. reflexivity.
  - destruct (prompt_input l1) as [t l2] eqn:R2.
    destruct (match fparse t with Some f => _ | None => _ end) as [v d] eqn:E.
    pose proof (attribute_read fparse l k l1 t l2 R1 K R2 v d E) as X. apply prompt_input_iff in R1.
    assert (Y : attribute_lines fparse l (k, v, fst d) (snd d)) by (apply X; auto).
    assert (Z : forall r', ~ reads_line l "" r'). { intros r' H. destruct (reads_line_det _ _ _ _ _ R1 H). congruence. }
    destruct (prompt_bool (snd d)) as [[] l4| |] eqn:A.
    + pose proof A as A'. apply prompt_bool_iff in A'. rewrite (IH l4). 2:{ apply prompt_bool_shorter in A. apply attribute_shorter in Y. lia. }
      split.
      * intros (es & -> & D). exists ((k, v, fst d) :: es). split; [rewrite <- app_assoc; reflexivity|]. econstructor; eauto.
      * intros (es & -> & D). inversion D as [? ? H|? a l3 ? H B|? a l3 l4' es' ? H B D']; subst.
        -- destruct (Z _ H).
        -- apply X in H. destruct H as [-> ->]. apply prompt_bool_iff in B. congruence.
        -- apply X in H. destruct H as [-> ->]. apply prompt_bool_iff in B. rewrite A in B. injection B as <-. exists es'.
           rewrite <- app_assoc. auto.
    + pose proof A as A'. apply prompt_bool_iff in A'. split.
      * intros [= <- <-]. exists [(k, v, fst d)]. split; [reflexivity|]. econstructor; eauto.
      * intros (es & -> & D). inversion D as [? ? H|? a l3 ? H B|? a l3 l4' es' ? H B D']; subst.
        -- destruct (Z _ H).
        -- apply X in H. destruct H as [-> ->]. apply prompt_bool_iff in B. rewrite A in B. injection B as <-. reflexivity.
        -- apply X in H. destruct H as [-> ->]. apply prompt_bool_iff in B. congruence.
    + destruct (prompt_bool_not_aborted _ A).
    + split; [discriminate|]. intros (es & -> & D). inversion D as [? ? H|? a l3 ? H B|? a l3 l4' es' ? H B D']; subst.
      * destruct (Z _ H).
      * apply X in H. destruct H as [-> ->]. apply prompt_bool_iff in B. congruence.
      * apply X in H. destruct H as [-> ->]. apply prompt_bool_iff in B. congruence.
Qed.

(** What the lines describe: name, description, image, address, attributes. *)
Inductive described (fparse : string -> option float)
  : list string -> string -> string -> string -> string -> list (string * json * option string) -> list string -> Prop :=
| ds_plain l name l1 descr l2 image l3 ext l4 r :
    reads_line l name l1 -> reads_line l1 descr l2 -> reads_line l2 image l3 -> reads_line l3 ext l4 ->
    answered l4 false r -> described fparse l name descr image ext [] r
| ds_attributes l name l1 descr l2 image l3 ext l4 l5 attrs r :
    reads_line l name l1 -> reads_line l1 descr l2 -> reads_line l2 image l3 -> reads_line l3 ext l4 ->
    answered l4 true l5 -> attributes fparse l5 attrs r -> described fparse l name descr image ext attrs r.

(** The document of a description. *)
Definition says_field (o : list (string * json)) (k t : string) : Prop :=
  if decide (t = ""%string) then forall v, ~ has_field o k v else has_field o k (JStr t).
Definition attribute_doc (a : string * json * option string) (j : json) : Prop :=
  exists o, j = JObj o /\ has_field o "trait_type" (JStr (fst (fst a))) /\ has_field o "value" (snd (fst a)) /\
    match snd a with Some d => has_field o "display_type" (JStr d) | None => forall v, ~ has_field o "display_type" v end.
Definition document (j : json) (name descr image ext : string) (attrs : list (string * json * option string)) : Prop :=
  exists o, j = JObj o /\ has_field o "name" (JStr name) /\ has_field o "description" (JStr descr) /\ says_field o "image" image /\
    says_field o "external_url" ext /\
    match attrs with
    | [] => forall v, ~ has_field o "attributes" v
    | _ => exists l, has_field o "attributes" (JArr l) /\ Forall2 attribute_doc attrs l
    end.

Lemma no_field l k : (forall v, ~ has_field l k v) <-> jget k l = None.
Proof.
  split.
  - intros H. destruct (jget k l) as [v|] eqn:E; [|reflexivity]. apply jget_spec in E. destruct (H _ E).
  - intros E v H. apply jget_spec in H. congruence.
Qed.

Lemma attribute_json_doc a : attribute_doc a (attribute_json a).
Proof.
  destruct a as [[k v] d]. unfold attribute_json. cbn [fst snd]. eexists. split; [reflexivity|].
  splits; [apply jget_spec; rewrite jget_set_opt; destruct d; reflexivity..|].
  cbn [snd]. destruct d; [apply jget_spec|apply no_field]; rewrite jget_set_opt; reflexivity.
Qed.

Definition given (t : string) : option string := if bool_decide (t = ""%string) then None else Some t.
Lemma create_document name descr image ext attrs :
  document (create_metadata name descr (given image) (given ext) attrs) name descr image ext attrs.
Proof.
  unfold create_metadata. eexists. split; [reflexivity|].
  set (m1 := jset_opt "external_url" (given ext) _).
  assert (G : forall k, jget k (match attrs with [] => m1 | _ => jset "attributes" (JArr (map attribute_json attrs)) m1 end) =
    if bool_decide (k = "attributes"%string) then match attrs with [] => None | _ => Some (JArr (map attribute_json attrs)) end else jget k m1).
  { intros k. destruct attrs as [|a attrs].
    - case_bool_decide as H; [|reflexivity]. subst k. unfold m1, given. rewrite !jget_set_opt.
      repeat case_bool_decide; try reflexivity; discriminate.
    - rewrite jget_set. repeat case_bool_decide; reflexivity. }
  assert (M : forall k, jget k m1 = if bool_decide (k = "external_url"%string) then JStr <$> given ext
    else if bool_decide (k = "image"%string) then JStr <$> given image else
    jget k [("name"%string, JStr name); ("description"%string, JStr descr)]).
  { intros k. unfold m1, given. rewrite !jget_set_opt. repeat case_bool_decide; subst; try reflexivity; discriminate. }
  splits; [apply jget_spec; rewrite G, M; reflexivity..| | |].
  - unfold says_field. destruct (decide _) as [E|E]; [apply no_field|apply jget_spec]; rewrite G, M; unfold given;
      repeat case_bool_decide; try reflexivity; congruence.
  - unfold says_field. destruct (decide _) as [E|E]; [apply no_field|apply jget_spec]; rewrite G, M; unfold given;
      repeat case_bool_decide; try reflexivity; congruence.
  - destruct attrs as [|a attrs]; [apply no_field; rewrite G; reflexivity|]. exists (map attribute_json (a :: attrs)). split.
    + apply jget_spec. rewrite G. reflexivity.
    + generalize (a :: attrs). intros l. induction l; constructor; [apply attribute_json_doc|assumption].
Qed.

(** If the dialogue ends with a document, the lines describe a name, a description that are not empty, and so on, and the
    document says exactly this and passes the tool's validation; and every such description yields its document. *)
Theorem C121_document fparse l r :
  (forall j, interactive_json fparse l = Ended j r ->
     exists name descr image ext attrs, described fparse l name descr image ext attrs r /\ name <> ""%string /\ descr <> ""%string /\
       document j name descr image ext attrs /\ good_metadata j) /\
  (forall name descr image ext attrs, described fparse l name descr image ext attrs r -> name <> ""%string -> descr <> ""%string ->
     exists j, interactive_json fparse l = Ended j r /\ document j name descr image ext attrs).
Proof.
  assert (O : forall l t r, prompt_input l = (t, r) -> prompt_optional l = (given t, r)).
  { intros l0 t r0 H. apply prompt_input_iff in H. apply prompt_optional_read, H. }
  split.
  - intros j. unfold interactive_json. destruct (prompt_input l) as [name l1] eqn:R1. case_bool_decide as N1; [discriminate|].
    destruct (prompt_input l1) as [descr l2] eqn:R2. case_bool_decide as N2; [discriminate|].
    destruct (prompt_input l2) as [image l3] eqn:R3. rewrite (O _ _ _ R3). destruct (prompt_input l3) as [ext l4] eqn:R4. rewrite (O _ _ _ R4).
    apply prompt_input_iff in R1, R2, R3, R4. destruct (prompt_bool l4) as [[] l5| |] eqn:A; try discriminate.
    + apply prompt_bool_iff in A. destruct (attributes_loop _ _ _ _) as [attrs r'| |] eqn:B; try discriminate. intros [= <- <-].
      apply attributes_iff in B; [|lia]. destruct B as (es & -> & B). exists name, descr, image, ext, es.
      splits; [econstructor; eauto|exact N1|exact N2|apply create_document|apply C76_created_valid].
    + apply prompt_bool_iff in A. intros [= <- <-]. exists name, descr, image, ext, [].
      splits; [econstructor; eauto|exact N1|exact N2|apply (create_document _ _ _ _ [])|apply C76_created_valid].
  - intros name descr image ext attrs D N1 N2. unfold interactive_json.
    destruct D as [l name l1 descr l2 image l3 ext l4 r R1 R2 R3 R4 A|l name l1 descr l2 image l3 ext l4 l5 attrs r R1 R2 R3 R4 A B];
      apply prompt_input_iff in R1, R2, R3, R4; apply prompt_bool_iff in A;
      rewrite R1, (bool_decide_eq_false_2 (name = _)) by exact N1; rewrite R2, (bool_decide_eq_false_2 (descr = _)) by exact N2;
      rewrite (O _ _ _ R3), (O _ _ _ R4), A.
    + eexists. split; [reflexivity|]. apply (create_document _ _ _ _ []).
    + assert (X : attributes_loop fparse (S (length l5)) l5 [] = Ended attrs r) by (apply attributes_iff; [lia|]; exists attrs; auto).
      rewrite X. eexists. split; [reflexivity|]. apply create_document.
Qed.
Print Assumptions C121_document.

(** Without the dialogue the document says what the options of the command say (an empty image or URL given as such aside). *)
Theorem C121_flags fparse a l n d :
  ca_interactive a = false -> ca_name a = Some n -> ca_description a = Some d ->
  (forall t, ca_image a = Some t \/ ca_external a = Some t -> t <> ""%string) ->
  exists j, create_command fparse a l = Ended j l /\ good_metadata j /\
    document j n d (default ""%string (ca_image a)) (default ""%string (ca_external a)) (attribute_args fparse (ca_attributes a)).
Proof.
  intros I N D E. unfold create_command. rewrite I, N, D.
  rewrite (proj2 (C76_validator_exact _) (C76_created_valid n d (ca_image a) (ca_external a) _)).
  eexists. split; [reflexivity|]. split; [apply C76_created_valid|].
  assert (G : forall o, (forall t, o = Some t -> t <> ""%string) -> given (default ""%string o) = o).
  { intros [t|] H; unfold given; cbn; [|reflexivity]. rewrite bool_decide_eq_false_2 by (apply H; reflexivity). reflexivity. }
  rewrite <- (G (ca_image a)) at 1 by (intros t H; apply E; left; exact H).
  rewrite <- (G (ca_external a)) at 1 by (intros t H; apply E; right; exact H). apply create_document.
Qed.
Print Assumptions C121_flags.

(** With the option for it, or with neither name nor description given, the command holds the dialogue and writes what it ended with. *)
Theorem C121_dialogue fparse a l j r :
  ca_interactive a = true \/ (ca_name a = None /\ ca_description a = None) ->
  create_command fparse a l = Ended j r <-> interactive_json fparse l = Ended j r.
Proof.
  intros I. assert (K : create_command fparse a l = match interactive_json fparse l with Ended j r => if validate_metadata j then Ended j r else Aborted | x => x end).
  { unfold create_command. destruct I as [-> | [-> ->]]; [|destruct (ca_interactive a)]; destruct (interactive_json fparse l); reflexivity. }
  rewrite K. destruct (interactive_json fparse l) as [j0 r0| |] eqn:X; [|reflexivity..].
  destruct (proj1 (C121_document fparse l r0) j0 X) as (? & ? & ? & ? & ? & _ & _ & _ & _ & G).
  rewrite (proj2 (C76_validator_exact _) G). reflexivity.
Qed.
Print Assumptions C121_dialogue.

(** A value which [f64] reads as not finite is lost here, too. *)
Theorem C121_nonfinite_refuted :
  ~ (forall fparse k v, bare k -> k <> ""%string -> bare v ->
       exists doc j, interactive_json fparse ["Cat"; "A cat"; ""; ""; "y"; k; v; ""; "n"]%string = Ended doc [] /\
         document doc "Cat" "A cat" "" "" [(k, j, None)] /\ attribute_meant fparse v j).
Proof.
  intros H. set (fp := fun s => if bool_decide (s = "nan"%string) then Some NonFinite else None).
  assert (B : forall t, trim t = t -> bare t). { intros t E. apply typed_iff in E. destruct E as (p & q & _ & _ & _ & E). exact E. }
  destruct (H fp "mother"%string "nan"%string) as (doc & j & E & D & M); [apply B; reflexivity|discriminate|apply B; reflexivity|].
  vm_compute in E. injection E as <-. destruct D as (o & [= <-] & _ & _ & _ & _ & l & L & F).
  apply jget_spec in L. vm_compute in L. injection L as <-. inversion_clear F as [|a x t t' A _]. destruct A as (o & E2 & _ & V & _). injection E2 as <-.
  apply jget_spec in V. vm_compute in V. injection V as <-. destruct M as [(n & _ & X)|[_ X]]; discriminate X.
Qed.
Print Assumptions C121_nonfinite_refuted.

Example C121_flags_example :
  let a := mkCreate false (Some "Cat"%string) (Some "A cat"%string) (Some "i.png"%string) None ["kind:tabby"%string] in
  create_command (fun _ => None) a ["rest"%string] =
    Ended (JObj [("name", JStr "Cat"); ("description", JStr "A cat"); ("image", JStr "i.png");
      ("attributes", JArr [JObj [("trait_type", JStr "kind"); ("value", JStr "tabby")]])])%string ["rest"%string] /\
  (forall t, ca_image a = Some t \/ ca_external a = Some t -> t <> ""%string).
Proof. cbv zeta. split; [vm_compute; reflexivity|]. intros t [[= <-]|[=]]. discriminate. Qed.

Example C121_example :
  let fp s := if bool_decide (s = "7"%string) then Some (Finite 7) else None in
  interactive_json fp ["Cat"; " A cat "; "http://x/y.png"; ""; "sure"; "y"; "lives"; "7"; "9"; "2"; "Y"; "colour"; "red"; "2"; "tint"; "n"; "rest"]%string =
    Ended (JObj [("name", JStr "Cat"); ("description", JStr "A cat"); ("image", JStr "http://x/y.png");
      ("attributes", JArr [JObj [("trait_type", JStr "lives"); ("value", JNum 7); ("display_type", JStr "boost_number")];
                           JObj [("trait_type", JStr "colour"); ("value", JStr "red"); ("display_type", JStr "tint")]])])%string ["rest"%string] /\
  interactive_json fp ["Cat"; ""]%string = Aborted /\
  create_command fp (mkCreate false (Some "Cat"%string) None None None []) [] = Aborted.
Proof. cbv zeta. splits; vm_compute; reflexivity. Qed.

(** ** C123: the mint command mints what it says *)

(** The metadata asked for on the command line. *)
Inductive requested (a : mint_args) (l : list string) : list (string * value) -> Prop :=
| rq_url u : ma_url a = Some u -> requested a l [("icrc97:metadata"%string, VArray [VText u])]
| rq_dialogue es r : ma_url a = None -> ma_interactive a = true -> dialogue l es r -> requested a l es
| rq_arguments : ma_url a = None -> ma_interactive a = false -> requested a l (ModelCli.mint_metadata (ma_entries a)).

(** The account named on the command line. *)
Definition named_account (a : mint_args) (acc : account) : Prop :=
  ma_owner a = principal_text (acc_owner acc) /\
  match ma_sub a with
  | None => acc_sub acc = None
  | Some t => exists b, acc_sub acc = Some b /\ length b = 32%nat /\ Forall (fun x => x < 256) b /\ lowercase t = hex_text b
  end.

Lemma mint_command_inv a l r rest : mint_command a l = Ended r rest ->
  named_account a (mr_owner r) /\ requested a l (mr_meta r) /\ mr_memo r = string_bytes <$> ma_memo a.
Proof.
  assert (N : forall url es r', cli_mint (ma_owner a) (ma_sub a) (ma_memo a) url es = Some r' ->
    named_account a (mr_owner r') /\ mr_memo r' = string_bytes <$> ma_memo a /\
    mr_meta r' = match url with Some u => url_metadata u | None => ModelCli.mint_metadata es end).
  { intros url es r' H. split; [|unfold cli_mint in H; destruct (principal_parse _); [|discriminate];
      destruct (match ma_sub a with Some _ => _ | None => _ end); [|discriminate]; injection H as <-; split; reflexivity].
    destruct (C78_account _ _ _ _ _ _ H) as (A & _ & B). split; [exact A|]. destruct (ma_sub a); exact B. }
  unfold mint_command. destruct (ma_interactive a && _) eqn:I.
  - apply andb_true_iff in I. destruct I as [I U]. apply bool_decide_eq_true in U.
    destruct (cli_mint _ _ _ _ _) as [r'|] eqn:C; [|discriminate]. destruct (interactive_entries l) as [m rest'| |] eqn:E; try discriminate.
    intros [= <- <-]. cbn [mr_owner mr_meta mr_memo]. destruct (N _ _ _ C) as (A & B & _). splits; auto.
    eapply rq_dialogue; eauto. apply C119_dialogue, E.
  - destruct (cli_mint _ _ _ _ _) as [r'|] eqn:C; [|discriminate]. intros [= <- <-]. destruct (N _ _ _ C) as (A & B & D). splits; auto.
    rewrite D. destruct (ma_url a) as [u|] eqn:U; [apply rq_url, U|]. apply rq_arguments; [exact U|].
    rewrite andb_false_iff, bool_decide_eq_false in I. destruct I as [I|I]; [exact I|congruence].
Qed.

(** If the command prints an id, then a token with this id is new, belongs to the account named, and has the metadata asked
    for; nothing else has changed owner.  (Metadata a failed mint left under the id shine through, see C42.) *)
Theorem C123_minted e a l s s' id :
  reachable s -> run_mint e a l s = (s', Some id) ->
  exists acc meta, named_account a acc /\ requested a l meta /\ owner_of s id = None /\ owner_of s' id = Some acc /\
    (forall t, t <> id -> owner_of s' t = owner_of s t) /\
    (forall k, meta_of s' id k = match last_value meta k with Some v => Some v | None => meta_of s id k end).
Proof.
  intros Hr H. unfold run_mint in H. destruct (mint_command a l) as [r rest| |] eqn:C; try discriminate.
  destruct (step e (OMint [r]) s) as [s1 an] eqn:S. destruct an; try discriminate. injection H as <- <-.
  destruct (mint_command_inv _ _ _ _ C) as (A & B & _). exists (mr_owner r), (mr_meta r).
  pose proof (C42_mint_overlay _ _ _ _ _ S 0%nat r) as M. pose proof (reachable_wf s Hr) as W.
  destruct (step_mint _ _ _ _ _ S) as (-> & _ & _ & _ & _ & _ & m & idxs & k & _ & _ & ->).
  splits; auto.
  - rewrite owner_of_tokens. destruct (tokens s !! last_id s) eqn:T; [|reflexivity]. apply (wf_lt _ W) in T. lia.
  - rewrite owner_of_tokens. cbn. rewrite lookup_insert. reflexivity.
  - intros t Ht. rewrite !owner_of_tokens. cbn. rewrite lookup_insert_ne by congruence. reflexivity.
  - intros k'. specialize (M k' eq_refl). rewrite N.add_0_r in M. exact M.
Qed.
Print Assumptions C123_minted.

(** If it prints none, nothing was minted. *)
Theorem C123_failed e a l s s' : run_mint e a l s = (s', None) -> forall t, owner_of s' t = owner_of s t.
Proof.
  unfold run_mint. destruct (mint_command a l) as [r rest| |]; [|intros [= <-]; reflexivity..].
  destruct (step e (OMint [r]) s) as [s1 an] eqn:S. intros H t. injection H as <- H.
  destruct (step_mint_other e [r] s) as (T & _); [|rewrite S in T; cbn in T; rewrite !owner_of_tokens, T; reflexivity].
  rewrite S. cbn. intros k ->. discriminate H.
Qed.
Print Assumptions C123_failed.

(** The name, which has to be given, is not used: the token does not know it. *)
Theorem C123_name_refuted :
  ~ (forall e a l s s' id, reachable s -> run_mint e a l s = (s', Some id) -> exists k v, meta_of s' id k = Some v /\ v = VText (ma_name a)).
Proof.
  intros H. set (a := mkMintArgs (principal_text alice) "Cat" None None (Some "http://x"%string) false []).
  destruct (run_mint (from_ admin 1) a [] demo0) as [s' o] eqn:E. assert (o = Some 1) as ->.
  { change o with (snd (s', o)). rewrite <- E. vm_compute. reflexivity. }
  destruct (C123_minted _ _ _ _ _ _ (demo_reachable []) E) as (acc & meta & _ & R & _ & _ & _ & M).
  destruct (H _ _ _ _ _ _ (demo_reachable []) E) as (k & v & K & V). rewrite M in K.
  destruct R as [u [= <-]|es r [=]|[=]]. cbn in K. destruct (bool_decide _); [injection K as <-; discriminate V|].
  vm_compute in K. discriminate K.
Qed.
Print Assumptions C123_name_refuted.

Theorem C123_name_partial e a n l s :
  run_mint e (mkMintArgs (ma_owner a) n (ma_memo a) (ma_sub a) (ma_url a) (ma_interactive a) (ma_entries a)) l s = run_mint e a l s.
Proof. reflexivity. Qed.
Print Assumptions C123_name_partial.

Example C123_example :
  let a := mkMintArgs (principal_text alice) "Cat" (Some "hi"%string) None None true ["x:1"%string] in
  snd (run_mint (from_ admin 1) a ["lives"; "2"; "7"; "n"]%string demo0) = Some 1 /\
  owner_of (fst (run_mint (from_ admin 1) a ["lives"; "2"; "7"; "n"]%string demo0)) 1 = Some (acct alice) /\
  meta_of (fst (run_mint (from_ admin 1) a ["lives"; "2"; "7"; "n"]%string demo0)) 1 "lives" = Some (VNat 7) /\
  run_mint (from_ bob 1) a ["lives"; "2"; "7"; "n"]%string demo0 = (demo0, None).
Proof. cbv zeta. splits; [vm_compute; reflexivity..|]. refine (snd_pair _ _ _). vm_compute. reflexivity. Qed.

(** ** C124: the permission commands *)

(** A text names a principal; a text names a permission, in one of its spellings. *)
Definition names_principal (t : string) (who : principal) : Prop := t = principal_text who.
Definition names_permission (t : string) (q : permission) : Prop :=
  exists sep, sep ∈ [""; "_"; "-"]%string /\ lowercase t = spelled sep q.

Theorem C124_grant e t p s s' :
  run_permissions e (PcGrant t p) s = (s', PoDone) ->
  exists who q, names_principal t who /\ names_permission p q /\ holds s' who q /\
    (forall who' q', (who', q') <> (who, q) -> holds s' who' q' <-> holds s who' q') /\
    run_permissions e (PcHas t p) s' = (s', PoBool true).
Proof.
  cbn [run_permissions]. destruct (principal_parse t) as [who|] eqn:P; [|discriminate].
  destruct (parse_permission p) as [q|] eqn:Q; [|discriminate]. destruct (step e (OGrant who q) s) as [s1 a] eqn:S. intros [= <- A].
  assert (a = AOk) as -> by (destruct a; discriminate || reflexivity). exists who, q.
  destruct (C35_grant _ _ _ _ _ S) as (X & Y & Z). splits; auto.
  - apply principal_parse_inv in P. apply P.
  - apply C67_spellings, Q.
  - rewrite Z. reflexivity.
Qed.
Print Assumptions C124_grant.

Theorem C124_revoke e t p s s' :
  run_permissions e (PcRevoke t p) s = (s', PoDone) ->
  exists who q, names_principal t who /\ names_permission p q /\ ~ holds s' who q /\
    (forall who' q', (who', q') <> (who, q) -> holds s' who' q' <-> holds s who' q') /\
    ((e_caller e, PManageAuthorities) <> (who, q) -> run_permissions e (PcHas t p) s' = (s', PoBool false)).
Proof.
  cbn [run_permissions]. destruct (principal_parse t) as [who|] eqn:P; [|discriminate].
  destruct (parse_permission p) as [q|] eqn:Q; [|discriminate]. destruct (step e (ORevokePerm who q) s) as [s1 a] eqn:S. intros [= <- A].
  assert (a = AOk) as -> by (destruct a; discriminate || reflexivity). exists who, q.
  destruct (C35_revoke _ _ _ _ _ S) as (X & Y & Z). splits; auto.
  - apply principal_parse_inv in P. apply P.
  - apply C67_spellings, Q.
  - intros N. rewrite (Z N). reflexivity.
Qed.
Print Assumptions C124_revoke.

(** Commands that print an error have changed nothing, and the queries never change anything. *)
Theorem C124_errors e c s s' o :
  run_permissions e c s = (s', o) ->
  (o = PoError \/ (exists t, c = PcList t) \/ (exists t p, c = PcHas t p)) -> s' = s.
Proof.
  intros H O. destruct c as [t p|t p|t|t p]; cbn [run_permissions] in H.
  - destruct (principal_parse t) as [who|]; [|congruence]. destruct (parse_permission p) as [q|]; [|congruence].
    destruct (step e (OGrant who q) s) as [s1 a] eqn:S. injection H as <- <-. rewrite step_grant in S.
    destruct (has_permission _ _ _); [|injection S as <- _; reflexivity]. destruct (decide _); injection S as <- <-; [|reflexivity].
    destruct O as [O|[[? O]|(? & ? & O)]]; discriminate O.
  - destruct (principal_parse t) as [who|]; [|congruence]. destruct (parse_permission p) as [q|]; [|congruence].
    destruct (step e (ORevokePerm who q) s) as [s1 a] eqn:S. injection H as <- <-. rewrite step_revoke_perm in S.
    destruct (has_permission _ _ _); [|injection S as <- _; reflexivity]. destruct (decide _); injection S as <- <-; [|reflexivity].
    destruct O as [O|[[? O]|(? & ? & O)]]; discriminate O.
  - destruct (principal_parse t); congruence.
  - destruct (principal_parse t); [|congruence]. destruct (parse_permission p); congruence.
Qed.
Print Assumptions C124_errors.

(** To somebody who manages permissions [has] prints the truth. *)
Theorem C124_has e t p s who q :
  reachable s -> holds s (e_caller e) PManageAuthorities -> Forall (fun x => x < 256) who -> (length who <= 29)%nat ->
  names_principal t who -> names_permission p q ->
  (holds s who q /\ run_permissions e (PcHas t p) s = (s, PoBool true)) \/
  (~ holds s who q /\ run_permissions e (PcHas t p) s = (s, PoBool false)).
Proof.
  intros _ H F L -> N. apply C67_spellings in N. cbn [run_permissions]. rewrite (principal_parse_text who F L), N.
  destruct (C35_queries s (e_caller e) who q H) as (A & B & _).
  destruct (query_has_permission s (e_caller e) who q) as [[]|] eqn:Q.
  - left. split; [apply A; reflexivity|reflexivity].
  - right. split; [apply B; reflexivity|reflexivity].
  - exfalso. unfold query_has_permission in Q. rewrite (proj2 (holds_iff _ _ _) H) in Q. discriminate Q.
Qed.
Print Assumptions C124_has.

(** Labels printed are those of the permissions held. *)
Theorem C124_list_partial e t s s' ls q :
  run_permissions e (PcList t) s = (s', PoLabels ls) ->
  exists who, names_principal t who /\ (permission_label q ∈ ls <-> holds s who q).
Proof.
  cbn [run_permissions]. destruct (principal_parse t) as [who|] eqn:P; [|discriminate]. unfold get_user_permissions.
  destruct (has_permission _ _ _); [|discriminate]. destruct (perms s !! who) as [l|] eqn:L; [|discriminate]. intros [= _ <-].
  exists who. split; [apply principal_parse_inv in P; apply P|]. unfold holds. rewrite L. rewrite elem_of_list_fmap. split.
  - intros (q' & E & Hq). exists l. split; [reflexivity|]. assert (q = q') as -> by (destruct q, q'; try reflexivity; discriminate E). exact Hq.
  - intros (l' & [= <-] & Hq). exists q. auto.
Qed.
Print Assumptions C124_list_partial.

(** But a permission granted twice is printed twice, *)
Theorem C124_once_refuted :
  ~ (forall e t s s' ls, reachable s -> run_permissions e (PcList t) s = (s', PoLabels ls) -> NoDup ls).
Proof.
  intros H. set (h := [(from_ admin 1, OGrant bob PMinting); (from_ admin 2, OGrant bob PMinting)]).
  assert (E : snd (run_permissions (from_ admin 3) (PcList (principal_text bob)) (run h demo0)) = PoLabels ["minting"; "minting"]%string)
    by (vm_compute; reflexivity).
  pose proof (H _ _ _ _ _ (demo_reachable h) (snd_pair _ _ E)) as N.
  apply NoDup_cons in N. destruct N as [N _]. apply N. left.
Qed.
Print Assumptions C124_once_refuted.

(** and for a principal that was never granted anything an error is printed. *)
Theorem C124_none_refuted :
  ~ (forall e who s, reachable s -> holds s (e_caller e) PManageAuthorities -> (forall q, ~ holds s who q) ->
       run_permissions e (PcList (principal_text who)) s = (s, PoLabels [])).
Proof.
  intros H. specialize (H (from_ admin 1) bob demo0 (demo_reachable [])).
  assert (E : snd (run_permissions (from_ admin 1) (PcList (principal_text bob)) demo0) = PoError) by (vm_compute; reflexivity).
  rewrite H in E; [discriminate E|apply holds_iff; vm_compute; reflexivity|].
  intros q. apply holds_not_iff. destruct q; vm_compute; reflexivity.
Qed.
Print Assumptions C124_none_refuted.

Example C124_example :
  let s1 := fst (run_permissions (from_ admin 1) (PcGrant (principal_text bob) "Manage-Authorities") demo0) in
  snd (run_permissions (from_ admin 1) (PcGrant (principal_text bob) "Manage-Authorities") demo0) = PoDone /\
  holds s1 bob PManageAuthorities /\
  snd (run_permissions (from_ bob 2) (PcList (principal_text bob)) s1) = PoLabels ["manage_authorities"%string] /\
  snd (run_permissions (from_ bob 2) (PcRevoke (principal_text admin) "minting") s1) = PoDone /\
  snd (run_permissions (from_ bob 2) (PcGrant (principal_text bob) "mint") s1) = PoError.
Proof. cbv zeta. splits; try (vm_compute; reflexivity). apply holds_iff. vm_compute. reflexivity. Qed.
