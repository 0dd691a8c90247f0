(** The command-line tool: C66, C67, C68, C75, C76, C77, C78. *)
From stdpp Require Import pretty.
From Verif Require Import Base ModelPrincipal ModelState ModelManagement ModelCodec ModelCli ProofsPrincipal.
Local Open Scope N_scope.

(** ** C66: the chunks of an upload *)

(** Chunks sent, with their ids. *)
Definition chunks (cs : list cli_call) : list (N * bytes) :=
  flat_map (fun c => match c with CStore i b => [(i, b)] | _ => [] end) cs.

(** The operating system: a read answers at most what was asked for and what is left, and nothing only at the end. *)
Definition posix (rd : read_oracle) : Prop :=
  forall i n m k, rd i n m = Some k -> k <= n /\ k <= m /\ (k = 0 -> n = 0 \/ m = 0).
(** Reads that are never short. *)
Definition full_reads (rd : read_oracle) : Prop := forall i n m, rd i n m = Some (N.min n m).

(** Consecutive numbers from [i]. *)
Fixpoint from_id (i : N) (k : nat) : list N := match k with O => [] | S j => i :: from_id (i + 1) j end.

Lemma send_prefix rd reply c k : posix rd -> forall i rest cs ok,
  send_chunks rd reply c k i rest = (cs, ok) ->
  (exists tail, rest = concat (map snd (chunks cs)) ++ tail) /\
  map fst (chunks cs) = from_id i (length (chunks cs)) /\ (length (chunks cs) <= k)%nat /\
  Forall (fun x => 0 < nlen (snd x) <= c) (chunks cs) /\ (forall s x, CInit s x ∉ cs) /\ CFinalize ∉ cs.
Proof.
  intros P. induction k as [|k IH]; intros i rest cs ok H; cbn [send_chunks] in H.
  - injection H as <- <-. cbn. splits; [exists rest; reflexivity|reflexivity|lia|constructor|..]; intros; apply not_elem_of_nil.
  - destruct (rd i c (nlen rest)) as [n|] eqn:R.
    2: { injection H as <- <-. cbn. splits; [exists rest; reflexivity|reflexivity|lia|constructor|..]; intros; apply not_elem_of_nil. }
    destruct (n =? 0) eqn:Z.
    { injection H as <- <-. cbn. splits; [exists rest; reflexivity|reflexivity|lia|constructor|..]; intros; apply not_elem_of_nil. }
    apply N.eqb_neq in Z. destruct (P _ _ _ _ R) as (P1 & P2 & _).
    assert (L : nlen (firstn (N.to_nat n) rest) = n). { unfold nlen in *. rewrite take_length. lia. }
    destruct (delivered _).
    + destruct (send_chunks rd reply c k (i + 1) _) as [cs1 ok1] eqn:E. injection H as <- <-.
      destruct (IH _ _ _ _ E) as ((tail & T) & I & Le & F & N1 & N2). cbn [chunks flat_map app map concat fst snd length from_id].
      fold (chunks cs1). splits.
      * exists tail. rewrite <- app_assoc, <- T. symmetry. apply take_drop.
      * rewrite <- I. reflexivity.
      * lia.
      * constructor; [cbn [snd]; rewrite L; lia|exact F].
      * intros s x. rewrite not_elem_of_cons. split; [discriminate|apply N1].
      * rewrite not_elem_of_cons. split; [discriminate|exact N2].
    + injection H as <- <-. cbn [chunks flat_map app map concat fst snd length from_id]. splits.
      * exists (skipn (N.to_nat n) rest). rewrite app_nil_r. symmetry. apply take_drop.
      * reflexivity.
      * lia.
      * constructor; [cbn [snd]; rewrite L; lia|constructor].
      * intros s x. rewrite not_elem_of_cons. split; [discriminate|apply not_elem_of_nil].
      * rewrite not_elem_of_cons. split; [discriminate|apply not_elem_of_nil].
Qed.

(** Whatever the reads and the replies: the chunks sent have the ids 0, 1, 2, ..., none is empty or longer than the chunk
    size, and together they are a beginning of the file. *)
Theorem C66_order rd reply file c cs r :
  posix rd -> upload_file rd reply file c = (cs, r) ->
  (exists tail, file = concat (map snd (chunks cs)) ++ tail) /\
  map fst (chunks cs) = from_id 0 (length (chunks cs)) /\
  (forall i b, (i, b) ∈ chunks cs -> 0 < nlen b <= c).
Proof.
  intros P H. unfold upload_file in H.
  assert (E0 : forall r', ([CInit (nlen file) c], r') = (cs, r) ->
    (exists tail, file = concat (map snd (chunks cs)) ++ tail) /\
    map fst (chunks cs) = from_id 0 (length (chunks cs)) /\ (forall i b, (i, b) ∈ chunks cs -> 0 < nlen b <= c)).
  { intros r' [= <- _]. cbn. splits; [exists file; reflexivity|reflexivity|]. intros i b X. inversion X. }
  destruct (negb _); [eapply E0; exact H|]. destruct (c =? 0); [eapply E0; exact H|].
  destruct (_ && _)%bool; [eapply E0; exact H|].
  destruct (send_chunks _ _ _ _ _ _) as [cs1 ok] eqn:E. destruct (send_prefix _ _ _ _ P _ _ _ _ E) as (T & I & _ & F & _).
  assert (X : chunks cs = chunks cs1).
  { destruct (negb ok); injection H as <- _; cbn [chunks flat_map app]; [reflexivity|].
    fold (chunks (cs1 ++ [CFinalize])). unfold chunks. rewrite flat_map_app. cbn. rewrite app_nil_r. reflexivity. }
  rewrite X. split; [exact T|]. split; [exact I|]. rewrite Forall_forall in F. intros i b Hb. apply (F _ Hb).
Qed.
Print Assumptions C66_order.

(** Number of chunks. *)
Lemma div_up n c : c <> 0 -> (n + c - 1) / c = if n =? 0 then 0 else (n - 1) / c + 1.
Proof.
  intros C. destruct (n =? 0) eqn:E.
  - apply N.eqb_eq in E. subst. apply N.div_small. lia.
  - apply N.eqb_neq in E. replace (n + c - 1) with (n - 1 + 1 * c) by lia. rewrite N.div_add by exact C. reflexivity.
Qed.

Lemma send_full rd reply c : full_reads rd -> 0 < c -> forall k i rest cs,
  nlen rest <= N.of_nat k * c -> send_chunks rd reply c k i rest = (cs, true) ->
  concat (map snd (chunks cs)) = rest /\
  (forall j x, chunks cs !! j = Some x -> (S j < length (chunks cs))%nat -> nlen (snd x) = c).
Proof.
  intros F C. induction k as [|k IH]; intros i rest cs L H; cbn [send_chunks] in H.
  - injection H as <-. cbn. split; [|intros j x X; inversion X]. destruct rest; [reflexivity|]. unfold nlen in L. cbn in L. lia.
  - rewrite F in H. destruct (N.min c (nlen rest) =? 0) eqn:Z.
    + apply N.eqb_eq in Z. injection H as <-. cbn. split; [|intros j x X; inversion X]. destruct rest; [reflexivity|]. unfold nlen in Z. cbn [length] in Z. lia.
    + apply N.eqb_neq in Z. destruct (delivered _); [|discriminate].
      destruct (send_chunks rd reply c k (i + 1) _) as [cs1 ok1] eqn:E. injection H as <- ->.
      assert (D : nlen (skipn (N.to_nat (N.min c (nlen rest))) rest) = nlen rest - N.min c (nlen rest)).
      { unfold nlen. rewrite drop_length. lia. }
      destruct (IH _ _ _ ltac:(rewrite D; lia) E) as [T S]. cbn [chunks flat_map app map concat fst snd length]. fold (chunks cs1). split.
      * rewrite T. apply take_drop.
      * intros [|j] x X J; cbn in X.
        -- injection X as <-. cbn [snd]. unfold nlen in *. rewrite take_length.
           destruct (chunks cs1) as [|y l] eqn:Y; [cbn in J; lia|].
           destruct (N.leb_spec c (N.of_nat (length rest))); [lia|]. exfalso.
           assert (skipn (N.to_nat (N.min c (N.of_nat (length rest)))) rest = []) as X0.
           { apply nil_length_inv. rewrite drop_length. lia. }
           rewrite X0 in T. destruct k as [|k']; cbn [send_chunks] in E; [injection E as <-; discriminate|].
           rewrite X0, F in E. cbn in E. rewrite N.min_r in E by lia. cbn in E. injection E as <-. discriminate.
        -- apply (S j x X). lia.
Qed.

(** If the operating system never answers fewer bytes than it could, an upload that gets as far as the last call has sent the
    whole file, in chunks of exactly the chunk size except the last one.  What is missing for the full claim is that the loop
    does not read on after a short read, see [C66_short_read_refuted]. *)
Theorem C66_whole_partial rd reply file c cs r :
  full_reads rd -> 0 < c < 2 ^ 63 -> nlen file < 2 ^ 63 -> upload_file rd reply file c = (cs, r) -> CFinalize ∈ cs ->
  concat (map snd (chunks cs)) = file /\
  (forall j x, chunks cs !! j = Some x -> (S j < length (chunks cs))%nat -> nlen (snd x) = c) /\
  cs = CInit (nlen file) c :: map (fun x => CStore (fst x) (snd x)) (chunks cs) ++ [CFinalize].
Proof.
  intros F C Fl H Fin. unfold upload_file in H. assert (P : posix rd).
  { intros i n m k. rewrite F. intros [= <-]. lia. }
  assert (N0 : forall r', ([CInit (nlen file) c], r') <> (cs, r)).
  { intros r' [= <- _]. apply elem_of_list_singleton in Fin. discriminate. }
  destruct (negb _); [exfalso; eapply N0; exact H|]. destruct (c =? 0); [exfalso; eapply N0; exact H|].
  destruct (_ && _)%bool; [exfalso; eapply N0; exact H|].
  destruct (send_chunks _ _ _ _ _ _) as [cs1 ok] eqn:E.
  destruct (send_prefix _ _ _ _ P _ _ _ _ E) as (_ & _ & _ & _ & N1 & N2).
  destruct ok; cbn [negb] in H.
  2: { exfalso. injection H as <- _. apply elem_of_cons in Fin. destruct Fin as [Fin|Fin]; [discriminate|]. contradiction. }
  assert (Hc : chunks (CInit (nlen file) c :: cs1 ++ [CFinalize]) = chunks cs1).
  { cbn [chunks flat_map app]. fold (chunks (cs1 ++ [CFinalize])). unfold chunks. rewrite flat_map_app. cbn. rewrite app_nil_r. reflexivity. }
  injection H as <- _. rewrite Hc. change (2 ^ 63) with 9223372036854775808 in *.
  assert (M : (nlen file + c + two64 - 1) mod two64 = nlen file + c - 1).
  { replace (nlen file + c + two64 - 1) with (nlen file + c - 1 + 1 * two64) by lia.
    rewrite N.mod_add by discriminate. apply N.mod_small. unfold two64. lia. }
  rewrite M in E. destruct (send_full rd reply c F ltac:(lia) (N.to_nat ((nlen file + c - 1) / c)) 0 file cs1) as [T S]; [|exact E|].
  - rewrite N2Nat.id, div_up by lia. destruct (nlen file =? 0) eqn:Z; [apply N.eqb_eq in Z; lia|]. apply N.eqb_neq in Z.
    pose proof (N.mul_succ_div_gt (nlen file - 1) c ltac:(lia)). lia.
  - split; [exact T|]. split; [exact S|]. f_equal. f_equal. clear -N1 N2. induction cs1 as [|[s x|i b|] cs IH]; [reflexivity|..].
    + exfalso. apply (N1 s x). left.
    + cbn [chunks flat_map app map fst snd]. fold (chunks cs). f_equal. apply IH; [intros s x X; eapply N1; right; exact X|intros X; apply N2; right; exact X].
    + exfalso. apply N2. left.
Qed.
Print Assumptions C66_whole_partial.

Lemma send_end rd reply c k : forall i rest cs, send_chunks rd reply c k i rest = (cs, true) ->
  exists tail, rest = concat (map snd (chunks cs)) ++ tail /\
    (length (chunks cs) = k \/ rd (i + N.of_nat (length (chunks cs))) c (nlen tail) = Some 0).
Proof.
  induction k as [|k IH]; intros i rest cs H; cbn [send_chunks] in H; [injection H as <-; exists rest; split; [reflexivity|left; reflexivity]|].
  destruct (rd i c (nlen rest)) as [n|] eqn:R; [|discriminate]. destruct (n =? 0) eqn:Z.
  { injection H as <-. exists rest. split; [reflexivity|]. right. apply N.eqb_eq in Z. subst n. cbn. rewrite N.add_0_r. exact R. }
  destruct (delivered _); [|discriminate]. destruct (send_chunks rd reply c k (i + 1) _) as [cs' ok] eqn:E. injection H as <- ->.
  destruct (IH _ _ _ E) as (tail & T & X). exists tail. cbn [chunks flat_map app map concat snd length]. fold (chunks cs').
  split; [rewrite <- app_assoc, <- T; symmetry; apply firstn_skipn|]. destruct X as [X|X]; [left; lia|right].
  replace (i + N.of_nat (S (length (chunks cs')))) with (i + 1 + N.of_nat (length (chunks cs'))) by lia. exact X.
Qed.

(** The upload is finalized only when as many chunks were read as the file needs or a read found nothing more: never after a read that
    failed. *)
Theorem C66_reads rd reply file c cs r :
  0 < c < 2 ^ 63 -> nlen file < 2 ^ 63 -> upload_file rd reply file c = (cs, r) -> CFinalize ∈ cs ->
  exists tail, file = concat (map snd (chunks cs)) ++ tail /\
    (N.of_nat (length (chunks cs)) = (nlen file + c - 1) / c \/ rd (N.of_nat (length (chunks cs))) c (nlen tail) = Some 0).
Proof.
  intros C L. unfold upload_file. destruct (negb (delivered _)).
  { intros [= <- _] H. apply elem_of_list_singleton in H. discriminate. }
  replace (c =? 0) with false by (symmetry; apply N.eqb_neq; lia).
  assert (W : (nlen file + c + two64 - 1) mod two64 = nlen file + c - 1).
  { unfold two64 in *. replace (nlen file + c + 18446744073709551616 - 1) with (nlen file + c - 1 + 1 * 18446744073709551616) by lia.
    rewrite N.mod_add by lia. apply N.mod_small. change (2 ^ 63) with 9223372036854775808 in *. lia. }
  rewrite W. replace (_ && _) with false by (symmetry; apply andb_false_iff; right; apply N.leb_gt; change (2 ^ 63) with 9223372036854775808 in *; lia).
  destruct (send_chunks _ _ _ _ _ _) as [cs' ok] eqn:E. destruct ok; cbn [negb].
  - intros [= <- _] _. destruct (send_end _ _ _ _ _ _ _ E) as (tail & T & X). exists tail.
    assert (K : chunks (CInit (nlen file) c :: cs' ++ [CFinalize]) = chunks cs').
    { unfold chunks. cbn [flat_map app]. rewrite flat_map_app. cbn. apply app_nil_r. }
    rewrite K. split; [exact T|]. destruct X as [X|X]; [left; rewrite X; apply N2Nat.id|right; exact X].
  - intros [= <- _] H. exfalso. apply elem_of_cons in H as [H|H]; [discriminate|].
    assert (S : forall k i rest cs ok, send_chunks rd reply c k i rest = (cs, ok) -> CFinalize ∉ cs).
    { clear. induction k as [|k IH]; intros i rest cs ok H; cbn [send_chunks] in H; [injection H as <- _; apply not_elem_of_nil|].
      destruct (rd i c (nlen rest)) as [n|]; [|injection H as <- _; apply not_elem_of_nil]. destruct (n =? 0); [injection H as <- _; apply not_elem_of_nil|].
      destruct (delivered _).
      - destruct (send_chunks _ _ _ _ _ _) as [cs' o] eqn:E. injection H as <- <-. apply not_elem_of_cons. split; [discriminate|]. eapply IH; eauto.
      - injection H as <- _. intros X. apply elem_of_list_singleton in X. discriminate. }
    exact (S _ _ _ _ _ E H).
Qed.
Print Assumptions C66_reads.

(** The second read fails. *)
Example C66_reads_example :
  let rd := fun i n m => if i =? 1 then None else Some (N.min n m) in
  upload_file rd (fun _ => ROk) [1; 2; 3; 4; 5] 2 = ([CInit 5 2; CStore 0 [1; 2]], UErr).
Proof. vm_compute. reflexivity. Qed.

(** When the tool panics: after the upload has been announced, for a chunk size of zero, or for one that cannot be allocated if
    there is anything to send (the sum of the sizes wraps around). *)
Theorem C66_panics rd reply file c :
  c < 2 ^ 64 -> nlen file < 2 ^ 64 ->
  snd (upload_file rd reply file c) = UPanic <->
  delivered (reply (CInit (nlen file) c)) = true /\ (c = 0 \/ (2 ^ 63 <= c /\ 0 < nlen file /\ nlen file + c <= 2 ^ 64)).
Proof.
  intros Hc Hl. unfold upload_file. destruct (delivered _); cbn [negb]; [|split; [discriminate|intros [X _]; discriminate X]].
  destruct (N.eqb_spec c 0) as [->|Nz]; [cbn; split; auto|]. change two64 with (2 ^ 64).
  assert (T : 2 ^ 63 <= c -> 0 < (nlen file + c + 2 ^ 64 - 1) mod 2 ^ 64 / c <-> 0 < nlen file /\ nlen file + c <= 2 ^ 64).
  { intros G. change (2 ^ 63) with 9223372036854775808 in *. change (2 ^ 64) with 18446744073709551616 in *. split.
    - intros P. destruct (N.ltb_spec ((nlen file + c + 18446744073709551616 - 1) mod 18446744073709551616) c) as [L|L];
        [rewrite N.div_small in P by exact L; lia|].
      destruct (N.le_gt_cases (nlen file + c) 18446744073709551616) as [E|E].
      + split; [|exact E]. destruct (N.eq_0_gt_0_cases (nlen file)) as [Z|Z]; [|exact Z]. exfalso. rewrite Z in L.
        replace (0 + c + 18446744073709551616 - 1) with (c - 1 + 1 * 18446744073709551616) in L by lia.
        rewrite N.mod_add, N.mod_small in L by lia. lia.
      + exfalso. replace (nlen file + c + 18446744073709551616 - 1) with (nlen file + c - 18446744073709551616 - 1 + 2 * 18446744073709551616) in L by lia.
        rewrite N.mod_add, N.mod_small in L by lia. lia.
    - intros [P E]. apply N.div_str_pos.
      replace (nlen file + c + 18446744073709551616 - 1) with (nlen file + c - 1 + 1 * 18446744073709551616) by lia.
      rewrite N.mod_add, N.mod_small by lia. lia. }
  destruct (N.leb_spec 9223372036854775808 c) as [G|G].
  - rewrite andb_true_r. destruct (N.ltb_spec 0 ((nlen file + c + 2 ^ 64 - 1) mod 2 ^ 64 / c)) as [P|P].
    + cbn. split; [|reflexivity]. intros _. split; [reflexivity|]. right. split; [exact G|]. apply T; [exact G|exact P].
    + destruct (send_chunks _ _ _ _ _ _) as [cs ok]. split.
      * destruct ok; cbn; [|discriminate]. destruct (finalized _); discriminate.
      * intros [_ [X|(_ & X)]]; [lia|]. apply T in X; [lia|exact G].
  - rewrite andb_false_r. destruct (send_chunks _ _ _ _ _ _) as [cs ok]. split.
    + destruct ok; cbn; [|discriminate]. destruct (finalized _); discriminate.
    + intros [_ [X|(X & _)]]; [lia|]. change (2 ^ 63) with 9223372036854775808 in X. lia.
Qed.
Print Assumptions C66_panics.

(** A short read (allowed by the operating system) makes the tool drop the end of the file, and still report success. *)
Definition short_once : read_oracle := fun i n m => Some (if i =? 0 then N.min 1 (N.min n m) else N.min n m).
Theorem C66_short_read_refuted :
  ~ (forall rd reply file c cs, posix rd -> 0 < c < 2 ^ 63 -> nlen file < 2 ^ 63 ->
       upload_file rd reply file c = (cs, UOk) -> concat (map snd (chunks cs)) = file).
Proof.
  intros H. specialize (H short_once (fun _ => ROk) [1; 2; 3; 4] 2 [CInit 4 2; CStore 0 [1]; CStore 1 [2; 3]; CFinalize]).
  assert (X : [1; 2; 3] = [1; 2; 3; 4]); [|discriminate X]. apply H; try (vm_compute; auto; fail).
  intros i n m k. unfold short_once. intros [= <-]. destruct (i =? 0); lia.
Qed.
Print Assumptions C66_short_read_refuted.

(** Refuted for large chunk sizes also with full reads: when file and chunk size together exceed 2^64, the number of chunks
    wraps around to zero, nothing is sent between the announcement and the final call, and only the canister can notice. *)
Theorem C66_wrap_refuted rd reply file c :
  c < 2 ^ 64 -> nlen file < 2 ^ 63 -> 2 ^ 64 < nlen file + c -> (forall x, reply x = ROk) ->
  upload_file rd reply file c = ([CInit (nlen file) c; CFinalize], UOk) /\ file <> [].
Proof.
  change (2 ^ 63) with 9223372036854775808. change (2 ^ 64) with 18446744073709551616. intros Hc Hl W R.
  split; [|intros ->; unfold nlen in W; cbn in W; lia]. unfold upload_file. rewrite !R. cbn [delivered negb finalized].
  destruct (N.eqb_spec c 0) as [->|_]; [lia|]. change two64 with 18446744073709551616.
  replace (nlen file + c + 18446744073709551616 - 1) with (nlen file + c - 18446744073709551616 - 1 + 2 * 18446744073709551616) by lia.
  rewrite N.mod_add, N.mod_small, N.div_small by lia. reflexivity.
Qed.
Print Assumptions C66_wrap_refuted.

Example C66_wrap_example :
  upload_file (fun _ n m => Some (N.min n m)) (fun _ => ROk) [65; 66; 67] (2 ^ 64 - 1) = ([CInit 3 (2 ^ 64 - 1); CFinalize], UOk).
Proof. vm_compute. reflexivity. Qed.

Example C66_panics_example :
  snd (upload_file (fun _ n m => Some (N.min n m)) (fun _ => ROk) [1] (2 ^ 63)) = UPanic /\
  snd (upload_file (fun _ n m => Some (N.min n m)) (fun _ => ROk) [] (2 ^ 63)) = UOk /\
  snd (upload_file (fun _ n m => Some (N.min n m)) (fun _ => ROk) [1; 2] (2 ^ 64 - 1)) = UOk.
Proof. splits; vm_compute; reflexivity. Qed.

Example C66_example :
  let rd := fun _ n m => Some (N.min n m) in
  full_reads rd /\
  upload_file rd (fun _ => ROk) [1; 2; 3; 4; 5] 2 =
    ([CInit 5 2; CStore 0 [1; 2]; CStore 1 [3; 4]; CStore 2 [5]; CFinalize], UOk) /\
  posix short_once.
Proof.
  splits; [intros i n m; reflexivity|vm_compute; reflexivity|].
  intros i n m k. unfold short_once. intros [= <-]. destruct (i =? 0); lia.
Qed.

(** ** C75: refusals *)

(** Claim: a refused call ends the upload with an error, and nothing is sent after it.  It fails for [init_upload] and
    [store_chunk], whose answers are not looked at. *)
Definition refusal_stops (init store : bool) : Prop :=
  forall rd reply file c cs r i x,
    upload_file rd reply file c = (cs, r) -> cs !! i = Some x -> reply x = RErr ->
    (match x with CInit _ _ => init | CStore _ _ => store | CFinalize => true end) = true ->
    r = UErr /\ length cs = S i.

Theorem C75_init_refuted : ~ refusal_stops true false.
Proof.
  intros H. specialize (H (fun _ n m => Some (N.min n m)) (fun x => match x with CInit _ _ => RErr | _ => ROk end) [7] 4
    [CInit 1 4; CStore 0 [7]; CFinalize] UOk 0%nat (CInit 1 4)).
  destruct H as [H _]; try reflexivity. discriminate H.
Qed.
Print Assumptions C75_init_refuted.

Theorem C75_store_refuted : ~ refusal_stops false true.
Proof.
  intros H. specialize (H (fun _ n m => Some (N.min n m)) (fun x => match x with CStore _ _ => RErr | _ => ROk end) [7] 4
    [CInit 1 4; CStore 0 [7]; CFinalize] UOk 1%nat (CStore 0 [7])).
  destruct H as [H _]; try reflexivity. discriminate H.
Qed.
Print Assumptions C75_store_refuted.

Lemma send_stop rd reply c k : forall i rest cs ok j x,
  send_chunks rd reply c k i rest = (cs, ok) -> cs !! j = Some x -> reply x = RFail -> ok = false /\ length cs = S j.
Proof.
  induction k as [|k IH]; intros i rest cs ok j x H J R; cbn [send_chunks] in H; [injection H as <- <-; inversion J|].
  destruct (rd i c (nlen rest)) as [n|]; [|injection H as <- <-; inversion J].
  destruct (n =? 0); [injection H as <- <-; inversion J|].
  destruct (delivered _) eqn:D.
  - destruct (send_chunks rd reply c k (i + 1) _) as [cs1 ok1] eqn:E. injection H as <- <-.
    destruct j as [|j]; cbn in J; [injection J as <-; rewrite R in D; discriminate|].
    destruct (IH _ _ _ _ _ _ E J R) as [-> L]. cbn [length]. rewrite L. auto.
  - injection H as <- <-. destruct j as [|j]; cbn in J; [auto|]. destruct j; discriminate.
Qed.

Lemma send_no_final rd reply c k : forall i rest cs ok, send_chunks rd reply c k i rest = (cs, ok) -> CFinalize ∉ cs.
Proof.
  induction k as [|k IH]; intros i rest cs ok H; cbn [send_chunks] in H; [injection H as <- <-; apply not_elem_of_nil|].
  destruct (rd i c (nlen rest)) as [n|]; [|injection H as <- <-; apply not_elem_of_nil].
  destruct (n =? 0); [injection H as <- <-; apply not_elem_of_nil|].
  destruct (delivered _) eqn:D.
  - destruct (send_chunks rd reply c k (i + 1) _) as [cs1 ok1] eqn:E. injection H as <- <-.
    apply not_elem_of_cons. split; [discriminate|]. eapply IH; eauto.
  - injection H as <- <-. apply not_elem_of_cons. split; [discriminate|]. apply not_elem_of_nil.
Qed.

(** What holds: a call that is not delivered (or traps) ends the upload with an error, and success is reported only if the
    canister accepted the final call and every call was delivered. *)
Theorem C75_stops_partial rd reply file c cs r :
  upload_file rd reply file c = (cs, r) ->
  (forall i x, cs !! i = Some x -> reply x = RFail \/ (x = CFinalize /\ reply x = RErr) -> r = UErr /\ length cs = S i) /\
  (r = UOk -> last cs = Some CFinalize /\ reply CFinalize = ROk /\ forall x, x ∈ cs -> reply x <> RFail).
Proof.
  intros H.
  assert (A : forall i x, cs !! i = Some x -> reply x = RFail \/ (x = CFinalize /\ reply x = RErr) -> r = UErr /\ length cs = S i).
  { intros i x J R. unfold upload_file in H.
    destruct (delivered (reply (CInit (nlen file) c))) eqn:D; cbn [negb] in H.
    2: { injection H as <- <-. destruct i as [|i]; cbn in J; [auto|]. destruct i; discriminate. }
    assert (N0 : ([CInit (nlen file) c]) !! i = Some x -> False).
    { intros X. destruct i as [|i]; [|destruct i; discriminate]. cbn in X. injection X as <-. destruct R as [R|[R _]]; [rewrite R in D|]; discriminate. }
    destruct (c =? 0); [injection H as <- <-; exfalso; auto|].
    destruct (_ && _)%bool; [injection H as <- <-; exfalso; auto|].
    destruct (send_chunks _ _ _ _ _ _) as [cs1 ok] eqn:E.
    destruct i as [|i]. { exfalso. apply N0. destruct (negb ok); injection H as <- _; exact J. }
    assert (K : cs1 !! i = Some x -> ok = false /\ length cs1 = S i).
    { intros X. destruct R as [R|[-> _]]; [eapply send_stop; eauto|]. exfalso. eapply send_no_final; [exact E|].
      eapply elem_of_list_lookup_2. exact X. }
    destruct ok; cbn [negb] in H; injection H as <- <-.
    - change ((cs1 ++ [CFinalize]) !! i = Some x) in J. apply lookup_app_Some in J. destruct J as [J|[Li J]].
      + destruct (K J). discriminate.
      + destruct (i - length cs1)%nat as [|n] eqn:En; [|destruct n; discriminate]. cbn in J. injection J as <-. split.
        * destruct R as [R|[_ R]]; rewrite R; reflexivity.
        * cbn [length]. rewrite app_length. cbn. lia.
    - change (cs1 !! i = Some x) in J. destruct (K J) as [_ L]. split; [reflexivity|]. cbn [length]. rewrite L. reflexivity. }
  split; [exact A|]. intros ->. 
  assert (B : last cs = Some CFinalize /\ reply CFinalize = ROk).
  { unfold upload_file in H. destruct (negb _); [discriminate|]. destruct (c =? 0); [discriminate|].
    destruct (_ && _)%bool; [discriminate|]. destruct (send_chunks _ _ _ _ _ _) as [cs1 ok]. destruct (negb ok); [discriminate|].
    destruct (reply CFinalize) eqn:R; cbn [finalized] in H; try discriminate. injection H as <-.
    split; [|reflexivity]. rewrite app_comm_cons, last_snoc. reflexivity. }
  destruct B as [B1 B2]. splits; [exact B1|exact B2|]. intros x X R. apply elem_of_list_lookup in X. destruct X as [i X].
  destruct (A i x X (or_introl R)) as [Y _]. discriminate Y.
Qed.
Print Assumptions C75_stops_partial.

Example C75_example :
  upload_file (fun _ n m => Some (N.min n m)) (fun x => match x with CStore 1 _ => RFail | _ => ROk end) [1; 2; 3; 4; 5] 2 =
    ([CInit 5 2; CStore 0 [1; 2]; CStore 1 [3; 4]], UErr) /\
  upload_file (fun _ n m => Some (N.min n m)) (fun x => match x with CFinalize => RErr | _ => ROk end) [1] 2 =
    ([CInit 1 2; CStore 0 [1]; CFinalize], UErr).
Proof. split; reflexivity. Qed.

(** ** C67: permission names *)

(** The words of each permission's name. *)
Definition words (p : permission) : list string :=
  match p with
  | PMinting => ["minting"] | PManageAuthorities => ["manage"; "authorities"] | PUpdateMetadata => ["update"; "metadata"]
  | PUpdateCollectionMetadata => ["update"; "collection"; "metadata"] | PReadUploads => ["read"; "uploads"]
  | PUpdateUploads => ["update"; "uploads"]
  end%string.
(** Words joined by a separator. *)
Definition spelled (sep : string) (p : permission) : string := String.concat sep (words p).

(** A text is understood as a permission exactly if it is, in any letter case, the permission's words joined by nothing, by
    underscores or by hyphens. *)
Theorem C67_spellings s p :
  parse_permission s = Some p <-> exists sep, sep ∈ [""; "_"; "-"]%string /\ lowercase s = spelled sep p.
Proof.
  split.
  - unfold parse_permission. intros H.
    repeat match type of H with
    | (if ?b then _ else _) = _ => destruct b eqn:?; [injection H as <-|]
    end; [..|discriminate];
    repeat match goal with X : (_ || _)%bool = true |- _ => apply orb_prop in X; destruct X as [X|X] end;
    match goal with X : bool_decide _ = true |- _ => apply bool_decide_eq_true in X; rewrite X end;
    first [exists ""%string; split; [apply elem_of_list_In; cbn; tauto|reflexivity]
          |exists "_"%string; split; [apply elem_of_list_In; cbn; tauto|reflexivity]
          |exists "-"%string; split; [apply elem_of_list_In; cbn; tauto|reflexivity]].
  - intros (sep & S & E). unfold parse_permission. rewrite E. clear E. apply elem_of_list_In in S.
    destruct S as [<-|[<-|[<-|[]]]]; destruct p; reflexivity.
Qed.
Print Assumptions C67_spellings.

(** The labels printed by the tool are understood, in any letter case. *)
Theorem C67_labels s p : lowercase s = permission_label p -> parse_permission s = Some p.
Proof.
  intros E. apply C67_spellings. exists "_"%string. split; [apply elem_of_list_In; cbn; tauto|]. rewrite E. destruct p; reflexivity.
Qed.
Print Assumptions C67_labels.

(** No spelling is shared. *)
Theorem C67_distinct p q sep sep' :
  sep ∈ [""; "_"; "-"]%string -> sep' ∈ [""; "_"; "-"]%string -> spelled sep p = spelled sep' q -> p = q.
Proof.
  intros S S' E. apply elem_of_list_In in S, S'.
  destruct S as [<-|[<-|[<-|[]]]]; destruct S' as [<-|[<-|[<-|[]]]]; destruct p, q; try reflexivity; discriminate E.
Qed.
Print Assumptions C67_distinct.

Example C67_example :
  parse_permission "Manage-AUTHORITIES" = Some PManageAuthorities /\ parse_permission "updateCollectionMetadata" = Some PUpdateCollectionMetadata /\
  parse_permission "update_collection-metadata" = None /\ parse_permission "mint" = None.
Proof. splits; vm_compute; reflexivity. Qed.

(** ** C68: metadata arguments *)

Definition no_colon (s : string) : Prop := forall i, String.get i s <> Some colon.

Lemma no_colon_cons c s : no_colon (String c s) <-> Ascii.eqb c colon = false /\ no_colon s.
Proof.
  split.
  - intros H. split; [|intros i; apply (H (S i))]. apply Ascii.eqb_neq. intros ->. apply (H 0%nat). reflexivity.
  - intros [H1 H2] [|i]; [|apply H2]. apply Ascii.eqb_neq in H1. intros X. apply H1. change (Some c = Some colon) in X. injection X. auto.
Qed.

Lemma split_no_colon s : no_colon s -> split_colon s = [s].
Proof.
  induction s as [|c s IH]; intros H; [reflexivity|]. apply no_colon_cons in H. destruct H as [E H]. cbn [split_colon]. rewrite E, (IH H). reflexivity.
Qed.

Lemma split_key k v : no_colon k -> split_colon (k +:+ String colon v) = k :: split_colon v.
Proof.
  induction k as [|c k IH]; intros H.
  - reflexivity.
  - apply no_colon_cons in H. destruct H as [E H]. change (String c k +:+ String colon v)%string with (String c (k +:+ String colon v)).
    cbn [split_colon]. rewrite E, (IH H). reflexivity.
Qed.

(** Decimal notation: [decimal s n] says that the digits [s] denote [n]. *)
Inductive decimal : string -> N -> Prop :=
| dec_digit c d : Ascii.N_of_ascii c = 48 + d -> d < 10 -> decimal (String c "") d
| dec_more s n c d : decimal s n -> Ascii.N_of_ascii c = 48 + d -> d < 10 -> decimal (s +:+ String c "") (10 * n + d).

(** How a text is meant: a natural, a negative integer, or a text. *)
Inductive meant : string -> value -> Prop :=
| meant_nat s n : decimal s n -> n < 2 ^ 64 -> meant s (VNat n)
| meant_plus s n : decimal s n -> n < 2 ^ 64 -> meant ("+" +:+ s) (VNat n)
| meant_minus s n : decimal s n -> n <= 2 ^ 63 -> meant ("-" +:+ s) (VInt (- Z.of_N n))
| meant_text s : (forall n, decimal s n -> 2 ^ 64 <= n) -> (forall t n, s = "+" +:+ t -> decimal t n -> 2 ^ 64 <= n) ->
    (forall t n, s = "-" +:+ t -> decimal t n -> 2 ^ 63 < n) -> meant s (VText s).

Lemma digits_snoc s c : forall a, digits (s +:+ String c "") a =
  match digits s a with Some n => match digit c with Some d => Some (10 * n + d) | None => None end | None => None end.
Proof.
  induction s as [|x s IH]; intros a.
  - change ("" +:+ String c "") with (String c ""). cbn [digits]. destruct (digit c); reflexivity.
  - change (String x s +:+ String c "") with (String x (s +:+ String c "")). cbn [digits]. destruct (digit x); [apply IH|reflexivity].
Qed.

Lemma digit_spec c d : digit c = Some d <-> Ascii.N_of_ascii c = 48 + d /\ d < 10.
Proof.
  unfold digit. destruct (48 <=? _) eqn:A; [destruct (_ <=? 57) eqn:B|]; cbn [andb].
  - apply N.leb_le in A, B. split; [intros [= <-]; lia|]. intros [H _]. f_equal. lia.
  - apply N.leb_gt in B. split; [discriminate|lia].
  - apply N.leb_gt in A. split; [discriminate|lia].
Qed.

Lemma string_snoc s : s = ""%string \/ exists t c, s = t +:+ String c "".
Proof.
  induction s as [|c s [->|(t & d & ->)]]; [auto|right; exists ""%string, c; reflexivity|].
  right. exists (String c t), d. reflexivity.
Qed.

Lemma snoc_length t c : String.length (t +:+ String c "") = S (String.length t).
Proof.
  induction t as [|x t IH]; [reflexivity|]. change (String x t +:+ String c "") with (String x (t +:+ String c "")). cbn [String.length]. rewrite IH. reflexivity.
Qed.

Lemma string_length_ind (P : string -> Prop) : P ""%string -> (forall s c, P s -> P (s +:+ String c "")) -> forall s, P s.
Proof.
  intros H0 HS s. remember (String.length s) as n eqn:E. revert s E. induction n as [|n IH]; intros s E.
  - destruct s; [exact H0|discriminate].
  - destruct (string_snoc s) as [->|(t & c & ->)]; [exact H0|]. apply HS, IH.
    rewrite snoc_length in E. lia.
Qed.

Lemma number_decimal s n : number s = Some n <-> decimal s n.
Proof.
  revert n. induction s as [|s c IH] using string_length_ind; intros n.
  - split; [discriminate|]. intros H. inversion H as [|t ? c ? ? ? ? E]. destruct t; discriminate E.
  - assert (E : number (s +:+ String c "") = digits (s +:+ String c "") 0). { destruct s; reflexivity. }
    rewrite E, digits_snoc. split.
    + destruct s as [|x s'].
      * cbn [digits]. destruct (digit c) as [d|] eqn:D; [|discriminate]. intros [= <-]. apply digit_spec in D. destruct D.
        apply dec_digit; assumption.
      * change (digits (String x s') 0) with (number (String x s')). destruct (number (String x s')) as [m|]; [|discriminate].
        destruct (digit c) as [d|] eqn:D; [|discriminate]. intros [= <-]. apply digit_spec in D. destruct D.
        apply dec_more; [apply IH; reflexivity|assumption|assumption].
    + assert (Q : forall t, decimal t n -> forall s0, t = s0 +:+ String c "" -> s0 = s ->
        match digits s0 0 with Some n0 => match digit c with Some d => Some (10 * n0 + d) | None => None end | None => None end = Some n).
      { intros t H. destruct H as [c' d H1 H2|s' m c' d H H1 H2]; intros s0 T ->.
        - destruct s as [|x s]; [|destruct s; discriminate T]. injection T as ->. cbn [digits]. rewrite (proj2 (digit_spec c d)) by auto.
          reflexivity.
        - assert (s' = s /\ c' = c) as [-> ->].
          { clear -T. revert s T. induction s' as [|x s' IHs]; intros [|y s] T.
            - injection T. auto.
            - destruct s; discriminate T.
            - destruct s'; discriminate T.
            - change (String x (s' +:+ String c' "") = String y (s +:+ String c "")) in T. injection T as -> T.
              destruct (IHs _ T) as [-> ->]. auto. }
          apply IH in H. destruct s as [|x s]; [discriminate|]. change (digits (String x s) 0) with (number (String x s)). rewrite H.
          rewrite (proj2 (digit_spec c d)) by auto. reflexivity. }
      intros H. exact (Q _ H s eq_refl eq_refl).
Qed.

Lemma decimal_first s n : decimal s n -> exists c t, s = String c t /\ 48 <= Ascii.N_of_ascii c <= 57.
Proof.
  induction 1 as [c d H1 H2|s n c d H (c' & t & -> & L) H1 H2].
  - exists c, ""%string. split; [reflexivity|lia].
  - exists c', (t +:+ String c ""). split; [reflexivity|exact L].
Qed.

Lemma arg_value_meant s : meant s (arg_value s).
Proof.
  unfold arg_value, parse_u64, parse_i64. destruct s as [|c r].
  { cbn. apply meant_text; intros; try discriminate. apply number_decimal in H. discriminate. }
  destruct (Ascii.N_of_ascii c =? 43) eqn:P.
  - apply N.eqb_eq in P. assert (c = Ascii.ascii_of_N 43) as -> by (rewrite <- (Ascii.ascii_N_embedding c), P; reflexivity).
    cbn [N.eqb Pos.eqb]. change (Ascii.N_of_ascii (Ascii.ascii_of_N 43) =? 45) with false. cbn [orb].
    destruct (number r) as [n|] eqn:E.
    + destruct (n <? two64) eqn:L.
      * apply N.ltb_lt in L. apply (meant_plus r n); [apply number_decimal; exact E|exact L].
      * apply N.ltb_ge in L. unfold two64 in L. replace (n <? 9223372036854775808) with false by (symmetry; apply N.ltb_ge; lia).
        apply meant_text.
        -- intros m H. apply decimal_first in H. destruct H as (c & t & [= <- _] & B). vm_compute in B. destruct B. congruence.
        -- intros t m [= <-] H. apply number_decimal in H. rewrite E in H. injection H as <-. exact L.
        -- intros t m [=].
    + apply meant_text.
      -- intros m H. apply decimal_first in H. destruct H as (c & t & [= <- _] & B). vm_compute in B. destruct B. congruence.
      -- intros t m [= <-] H. apply number_decimal in H. congruence.
      -- intros t m [=].
  - destruct (Ascii.N_of_ascii c =? 45) eqn:M.
    + apply N.eqb_eq in M. assert (c = Ascii.ascii_of_N 45) as -> by (rewrite <- (Ascii.ascii_N_embedding c), M; reflexivity).
      assert (X : number (String (Ascii.ascii_of_N 45) r) = None) by reflexivity. rewrite X.
      destruct (number r) as [n|] eqn:E.
      * destruct (n <=? _) eqn:L.
        -- apply N.leb_le in L. apply (meant_minus r n); [apply number_decimal; exact E|exact L].
        -- apply N.leb_gt in L. apply meant_text.
           ++ intros m H. apply decimal_first in H. destruct H as (c & t & [= <- _] & B). vm_compute in B. destruct B. congruence.
           ++ intros t m [=].
           ++ intros t m [= <-] H. apply number_decimal in H. rewrite E in H. injection H as <-. exact L.
      * apply meant_text.
        -- intros m H. apply decimal_first in H. destruct H as (c & t & [= <- _] & B). vm_compute in B. destruct B. congruence.
        -- intros t m [=].
        -- intros t m [= <-] H. apply number_decimal in H. congruence.
    + assert (NP : forall t, String c r <> "+" +:+ t). { intros t [= -> _]. vm_compute in P. discriminate. }
      assert (NM : forall t, String c r <> "-" +:+ t). { intros t [= -> _]. vm_compute in M. discriminate. }
      destruct (number (String c r)) as [n|] eqn:E.
      * destruct (n <? two64) eqn:L.
        -- apply N.ltb_lt in L. apply meant_nat; [apply number_decimal; exact E|exact L].
        -- apply N.ltb_ge in L. unfold two64 in L. replace (n <? 9223372036854775808) with false by (symmetry; apply N.ltb_ge; lia).
           apply meant_text.
           ++ intros m H. apply number_decimal in H. rewrite E in H. injection H as <-. exact L.
           ++ intros t m X. destruct (NP _ X).
           ++ intros t m X. destruct (NM _ X).
      * apply meant_text.
        -- intros m H. apply number_decimal in H. congruence.
        -- intros t m X. destruct (NP _ X).
        -- intros t m X. destruct (NM _ X).
Qed.

Lemma meant_det s s' x y : meant s x -> meant s' y -> s = s' -> x = y.
Proof.
  intros H G.
  assert (Sg : forall t n, decimal ("+" +:+ t) n -> False).
  { intros t n D. apply decimal_first in D. destruct D as (c & u & [= <- _] & B). vm_compute in B. destruct B. congruence. }
  assert (Sm : forall t n, decimal ("-" +:+ t) n -> False).
  { intros t n D. apply decimal_first in D. destruct D as (c & u & [= <- _] & B). vm_compute in B. destruct B. congruence. }
  assert (Fu : forall t n m, decimal t n -> decimal t m -> n = m).
  { intros t n m D E. apply number_decimal in D, E. congruence. }
  assert (Pl : forall t u, "+" +:+ t = "+" +:+ u -> t = u) by (intros t u [=]; assumption).
  assert (Mi : forall t u, "-" +:+ t = "-" +:+ u -> t = u) by (intros t u [=]; assumption).
  destruct H as [s n D L|s n D L|s n D L|s N1 N2 N3]; destruct G as [t m D' L'|t m D' L'|t m D' L'|t M1 M2 M3]; intros E.
  - subst. f_equal. eauto.
  - subst. exfalso. eauto.
  - subst. exfalso. eauto.
  - subst. exfalso. specialize (M1 _ D). lia.
  - subst. exfalso. eauto.
  - apply Pl in E. subst. f_equal. eauto.
  - discriminate E.
  - subst. exfalso. specialize (M2 _ _ eq_refl D). lia.
  - subst. exfalso. eauto.
  - discriminate E.
  - apply Mi in E. subst. f_equal. f_equal. f_equal. eauto.
  - subst. exfalso. specialize (M3 _ _ eq_refl D). lia.
  - subst. exfalso. specialize (N1 _ D'). lia.
  - subst. exfalso. specialize (N2 _ _ eq_refl D'). lia.
  - subst. exfalso. specialize (N3 _ _ eq_refl D'). lia.
  - subst. reflexivity.
Qed.

(** A text has one meaning. *)
Theorem C68_meaning_unique s x y : meant s x -> meant s y -> x = y.
Proof. intros A B. eapply meant_det; eauto. Qed.
Print Assumptions C68_meaning_unique.

(** For an argument [key:value] in which neither part contains a colon, exactly that key is minted, with the value as meant.
    Values containing a colon are cut, see [C68_colon_refuted]. *)
Theorem C68_arguments_partial k v :
  no_colon k -> no_colon v -> exists x, mint_metadata [k +:+ String colon v] = [(k, x)] /\ meant v x.
Proof.
  intros K V. exists (arg_value v). split; [|apply arg_value_meant]. unfold mint_metadata. cbn [flat_map].
  rewrite (split_key k v K), (split_no_colon v V). reflexivity.
Qed.
Print Assumptions C68_arguments_partial.

(** Several arguments are taken one by one. *)
Theorem C68_one_by_one l l' : mint_metadata (l ++ l') = mint_metadata l ++ mint_metadata l'.
Proof. apply flat_map_app. Qed.
Print Assumptions C68_one_by_one.

(** With a colon in the value only the part before it is minted: a URL is reduced to its scheme. *)
Theorem C68_colon_refuted :
  ~ (forall k v, no_colon k -> exists x, mint_metadata [k +:+ String colon v] = [(k, x)] /\ meant v x).
Proof.
  intros H. destruct (H "image"%string "https://x.org/a.png"%string) as (x & E & M).
  - intros i. do 6 (destruct i as [|i]; [discriminate|]). cbn. destruct i; discriminate.
  - vm_compute in E. injection E as <-. inversion M.
Qed.
Print Assumptions C68_colon_refuted.

Example C68_example :
  no_colon "level" /\ no_colon "-12" /\
  mint_metadata ["level:-12"; "name:Rose"; "size:007"; "no colon"; "image:https://x.org/a.png"; "big:18446744073709551616"]%string =
    [("level", VInt (-12)); ("name", VText "Rose"); ("size", VNat 7); ("image", VText "https"); ("big", VText "18446744073709551616")]%string.
Proof.
  splits; [| |vm_compute; reflexivity]; intros i; do 6 (destruct i as [|i]; [discriminate|]); cbn; destruct i; discriminate.
Qed.

(** ** C76: validation of JSON metadata *)

(** Reading a field of an object ([serde_json] keeps one value per key; of several pairs the first is read). *)
Inductive has_field (l : list (string * json)) (k : string) (v : json) : Prop :=
| has_field_at i : l !! i = Some (k, v) -> (forall j x, (j < i)%nat -> l !! j = Some x -> fst x <> k) -> has_field l k v.

(** A field, if present, is a text. *)
Definition text_if_present (l : list (string * json)) (k : string) : Prop := forall v, has_field l k v -> exists s, v = JStr s.

(** Form of an attribute. *)
Definition good_attribute (j : json) : Prop :=
  exists l, j = JObj l /\ (exists s, has_field l "trait_type" (JStr s)) /\ (exists v, has_field l "value" v) /\
    text_if_present l "display_type".

(** Form of the metadata of a token. *)
Definition good_metadata (j : json) : Prop :=
  exists l, j = JObj l /\ (forall k, k ∈ ["name"; "description"; "image"; "external_url"]%string -> text_if_present l k) /\
    forall v, has_field l "attributes" v -> exists a, v = JArr a /\ forall x, x ∈ a -> good_attribute x.

Lemma jget_spec l k v : jget k l = Some v <-> has_field l k v.
Proof.
  induction l as [|[k' v'] l IH]; cbn [jget].
  - split; [discriminate|]. intros [i H _]. inversion H.
  - case_bool_decide as D.
    + subst k'. split.
      * intros [= ->]. apply (has_field_at _ _ _ 0%nat); [reflexivity|]. intros j x L. lia.
      * intros [[|i] H N]; [cbn in H; congruence|]. exfalso. apply (N 0%nat (k, v') ltac:(lia)); reflexivity.
    + rewrite IH. split.
      * intros [i H N]. apply (has_field_at _ _ _ (S i)); [exact H|]. intros [|j] x L J; [cbn in J; injection J as <-; cbn; congruence|].
        apply (N j x); [lia|exact J].
      * intros [[|i] H N]; [cbn in H; congruence|]. apply (has_field_at _ _ _ i); [exact H|]. intros j x L J. apply (N (S j) x); [lia|exact J].
Qed.

Lemma is_str_spec j : is_str j = true <-> exists s, j = JStr s.
Proof. destruct j; cbn; split; try discriminate; try (intros [? [=]]); eauto. Qed.

Lemma str_field_spec k l : str_field k l = true <-> text_if_present l k.
Proof.
  unfold str_field, text_if_present. destruct (jget k l) as [v|] eqn:E.
  - rewrite is_str_spec. split.
    + intros S w W. apply jget_spec in W. assert (w = v) as -> by congruence. exact S.
    + intros A. apply A. apply jget_spec. exact E.
  - split; [|reflexivity]. intros _ v V. apply jget_spec in V. congruence.
Qed.

Lemma valid_attribute_spec j : valid_attribute j = true <-> good_attribute j.
Proof.
  unfold good_attribute. destruct j as [| | | | |l]; try (split; [discriminate|intros (? & [=] & _)]).
  cbn [valid_attribute]. destruct (jget "trait_type" l) as [t|] eqn:T.
  - split.
    + intros H. apply andb_prop in H. destruct H as [H H3]. apply andb_prop in H. destruct H as [H1 H2]. exists l. split; [reflexivity|].
      apply is_str_spec in H1. destruct H1 as [s ->]. splits.
      * exists s. apply jget_spec. exact T.
      * destruct (jget "value" l) as [v|] eqn:V; [|discriminate]. exists v. apply jget_spec. exact V.
      * apply str_field_spec. exact H3.
    + intros (l' & [= <-] & (s & S) & (v & V) & D). apply jget_spec in S, V. rewrite V. rewrite T in S. injection S as ->.
      apply str_field_spec in D. rewrite D. reflexivity.
  - split; [discriminate|]. intros (l' & [= <-] & (s & S) & _). apply jget_spec in S. congruence.
Qed.

(** The validator accepts exactly the documents of that form. *)
Theorem C76_validator_exact j : validate_metadata j = true <-> good_metadata j.
Proof.
  unfold good_metadata. destruct j as [| | | | |l]; try (split; [discriminate|intros (? & [=] & _)]).
  cbn [validate_metadata]. rewrite !andb_true_iff, !str_field_spec. split.
  - intros ((((A & B) & C) & D) & E). exists l. split; [reflexivity|]. split.
    + intros k K. apply elem_of_list_In in K. cbn in K. destruct K as [<-|[<-|[<-|[<-|[]]]]]; assumption.
    + intros v V. apply jget_spec in V. rewrite V in E. destruct v; try discriminate. exists l0. split; [reflexivity|].
      intros x X. apply valid_attribute_spec. rewrite forallb_forall in E. apply E. apply elem_of_list_In. exact X.
  - intros (l' & [= <-] & K & A). splits; try (apply K; apply elem_of_list_In; cbn; tauto).
    destruct (jget "attributes" l) as [v|] eqn:V; [|reflexivity]. apply jget_spec in V. destruct (A _ V) as (a & -> & F).
    apply forallb_forall. intros x X. apply valid_attribute_spec, F. apply elem_of_list_In. exact X.
Qed.
Print Assumptions C76_validator_exact.

Lemma jget_set k v l k' : jget k' (jset k v l) = if bool_decide (k' = k) then Some v else jget k' l.
Proof.
  induction l as [|[x y] l IH]; cbn [jset].
  - cbn [jget]. repeat case_bool_decide; try reflexivity; congruence.
  - destruct (decide (k = x)) as [D|D].
    + subst x. rewrite (bool_decide_eq_true_2 (k = k)) by reflexivity. cbn [jget]. repeat case_bool_decide; reflexivity.
    + rewrite (bool_decide_eq_false_2 (k = x)) by exact D. cbn [jget]. rewrite IH. repeat case_bool_decide; try reflexivity; congruence.
Qed.

Lemma jget_set_opt k v l k' : jget k' (jset_opt k v l) = match v with Some x => if bool_decide (k' = k) then Some (JStr x) else jget k' l | None => jget k' l end.
Proof. destruct v; [apply jget_set|reflexivity]. Qed.

(** Metadata created by the tool always pass its validation. *)
Theorem C76_created_valid name descr image ext attrs : good_metadata (create_metadata name descr image ext attrs).
Proof.
  apply C76_validator_exact. unfold create_metadata. cbn [validate_metadata].
  assert (V : forall a, valid_attribute (attribute_json a) = true).
  { intros [[t v] d]. unfold attribute_json. cbn [valid_attribute fst snd]. unfold str_field. rewrite !jget_set_opt. destruct d; reflexivity. }
  destruct attrs as [|a attrs].
  - unfold str_field. rewrite !jget_set_opt. destruct image, ext; reflexivity.
  - assert (A : forallb valid_attribute (map attribute_json (a :: attrs)) = true).
    { apply forallb_forall. intros x X. apply in_map_iff in X. destruct X as (y & <- & _). apply V. }
    revert A. generalize (map attribute_json (a :: attrs)). intros l A.
    unfold str_field. rewrite !jget_set, !jget_set_opt. destruct image, ext; cbn; exact A.
Qed.
Print Assumptions C76_created_valid.

Example C76_example :
  validate_metadata (JObj [("name"%string, JStr "x"); ("attributes"%string, JArr [JObj [("trait_type"%string, JStr "t"); ("value"%string, JNull)]])]) = true /\
  validate_metadata (JObj [("attributes"%string, JArr [JObj [("trait_type"%string, JStr "t")]])]) = false /\
  validate_metadata (JObj [("name"%string, JNum 1)]) = false.
Proof. splits; reflexivity. Qed.

(** ** C77: attributes given on the command line *)

(** Claim for an argument [trait:value:display]: one attribute with that trait and display type whose value is the number or
    the text.  [fparse] stands for [str::parse::<f64>]. *)
Definition attribute_meant (fparse : string -> option float) (v : string) (j : json) : Prop :=
  (exists n, fparse v = Some (Finite n) /\ j = JNum n) \/ ((forall n, fparse v <> Some (Finite n)) /\ j = JStr v).

Theorem C77_attributes_partial fparse t v d :
  no_colon t -> no_colon v -> no_colon d -> fparse v <> Some NonFinite ->
  (exists j, attribute_args fparse [t +:+ String colon v] = [(t, j, None)] /\ attribute_meant fparse v j) /\
  (exists j, attribute_args fparse [t +:+ String colon (v +:+ String colon d)] = [(t, j, Some d)] /\ attribute_meant fparse v j).
Proof.
  intros T V D F. unfold attribute_args, attribute_arg. cbn [flat_map].
  rewrite !(split_key t _ T), (split_key v d V), (split_no_colon v V), (split_no_colon d D). cbn [app].
  assert (M : attribute_meant fparse v (match fparse v with Some f => json_float f | None => JStr v end)).
  { unfold attribute_meant. destruct (fparse v) as [[n|]|]; cbn [json_float]; [left; eauto|congruence|right]. split; [discriminate|reflexivity]. }
  split; eexists; split; try reflexivity; exact M.
Qed.
Print Assumptions C77_attributes_partial.

(** A text which [f64] reads as not finite ("nan", "inf", "infinity") is lost: the attribute's value becomes null. *)
Theorem C77_nonfinite_refuted :
  ~ (forall fparse t v, no_colon t -> no_colon v ->
       exists j, attribute_args fparse [t +:+ String colon v] = [(t, j, None)] /\ attribute_meant fparse v j).
Proof.
  intros H. destruct (H (fun s => if bool_decide (s = "nan"%string) then Some NonFinite else None) "name"%string "nan"%string) as (j & E & M).
  - intros i. do 5 (destruct i as [|i]; [discriminate|]). cbn. destruct i; discriminate.
  - intros i. do 5 (destruct i as [|i]; [discriminate|]). cbn. destruct i; discriminate.
  - vm_compute in E. injection E as <-. destruct M as [(n & _ & X)|[_ X]]; discriminate X.
Qed.
Print Assumptions C77_nonfinite_refuted.

Example C77_example :
  let fparse := fun s => if bool_decide (s = "12"%string) then Some (Finite 12) else None in
  attribute_args fparse ["level:12:number"; "kind:rose"; "bad"]%string =
    [("level"%string, JNum 12, Some "number"%string); ("kind"%string, JStr "rose", None)] /\
  validate_metadata (create_metadata "n" "d" (Some "i"%string) None (attribute_args fparse ["level:12:number"]%string)) = true.
Proof. split; vm_compute; reflexivity. Qed.

(** ** C78: the mint request *)

(** Hexadecimal text of bytes (lower case). *)
Definition hex_char (n : N) : Ascii.ascii := Ascii.ascii_of_N (if n <? 10 then 48 + n else 87 + n).
Fixpoint hex_text (b : bytes) : string :=
  match b with [] => "" | x :: r => String (hex_char (x / 16)) (String (hex_char (x mod 16)) (hex_text r)) end.

Lemma hex_char_digit n : n < 16 -> hex_digit (hex_char n) = Some n.
Proof.
  intros H. assert (A : forallb (fun n => bool_decide (hex_digit (hex_char n) = Some n)) (map N.of_nat (seq 0 16)) = true) by reflexivity.
  pose proof (all_small _ 16%nat A n H) as X. apply bool_decide_eq_true in X. exact X.
Qed.

Lemma hex_decode_text b : Forall (fun x => x < 256) b -> hex_decode (hex_text b) = Some b.
Proof.
  induction 1 as [|x b L F IH]; [reflexivity|]. cbn [hex_text hex_decode].
  rewrite !hex_char_digit, IH by (first [apply N.mod_lt; discriminate|apply N.div_lt_upper_bound; lia]).
  f_equal. f_equal. pose proof (N.div_mod x 16). lia.
Qed.

Lemma hex_lower c d : hex_digit c = Some d <-> d < 16 /\ lower_ascii c = hex_char d.
Proof.
  assert (A : forallb (fun n => match hex_digit (Ascii.ascii_of_N n) with
      | Some d => (d <? 16) && bool_decide (lower_ascii (Ascii.ascii_of_N n) = hex_char d)
      | None => forallb (fun d => negb (bool_decide (lower_ascii (Ascii.ascii_of_N n) = hex_char d))) (map N.of_nat (seq 0 16)) end)
      (map N.of_nat (seq 0 256)) = true) by (vm_compute; reflexivity).
  pose proof (all_small _ 256%nat A (Ascii.N_of_ascii c) (Ascii.N_ascii_bounded c)) as X. cbv beta in X.
  rewrite Ascii.ascii_N_embedding in X. destruct (hex_digit c) as [e|].
  - apply andb_prop in X. destruct X as [X1 X2]. apply N.ltb_lt in X1. apply bool_decide_eq_true in X2. split; [intros [= <-]; auto|].
    intros [D E]. f_equal. rewrite X2 in E. apply (f_equal hex_digit) in E. rewrite !hex_char_digit in E by assumption. congruence.
  - split; [discriminate|]. intros [D E]. exfalso.
    pose proof (all_small _ 16%nat X d D) as Y. cbv beta in Y. rewrite bool_decide_eq_true_2 in Y by exact E. discriminate.
Qed.

Lemma hex_decode_inv s b : hex_decode s = Some b <-> lowercase s = hex_text b /\ Forall (fun x => x < 256) b.
Proof.
  revert s. assert (G : forall n s b, (String.length s <= n)%nat -> hex_decode s = Some b <-> lowercase s = hex_text b /\ Forall (fun x => x < 256) b).
  2: { intros s. apply (G (String.length s)). lia. }
  induction n as [|n IH]; intros s b' L.
  - destruct s; [|cbn in L; lia]. cbn. split; [intros [= <-]; auto|]. intros [E _]. destruct b'; [reflexivity|discriminate].
  - destruct s as [|a [|c r]].
    + cbn. split; [intros [= <-]; auto|]. intros [E _]. destruct b'; [reflexivity|discriminate].
    + cbn. split; [discriminate|]. intros [E _]. destruct b'; discriminate.
    + cbn [hex_decode lowercase]. cbn [String.length] in L. split.
      * destruct (hex_digit a) as [x|] eqn:Ea; [|discriminate]. destruct (hex_digit c) as [y|] eqn:Ec; [|discriminate].
        destruct (hex_decode r) as [l|] eqn:Er; [|discriminate]. intros X. assert (b' = 16 * x + y :: l) as -> by congruence. clear X. apply hex_lower in Ea, Ec. destruct Ea as [Lx ->], Ec as [Ly ->].
        apply IH in Er; [|lia]. destruct Er as [-> F]. cbn [hex_text].
        replace ((16 * x + y) / 16) with x by (apply (N.div_unique _ 16 x y); lia).
        replace ((16 * x + y) mod 16) with y by (apply (N.mod_unique _ 16 x y); lia).
        split; [reflexivity|]. constructor; [lia|exact F].
      * intros [E F]. destruct b' as [|z b']; [discriminate|]. cbn [hex_text] in E. injection E as Ea Ec Er. inversion F as [|? ? Lz F']; subst.
        assert (hex_digit a = Some (z / 16)) as -> by (apply hex_lower; split; [apply N.div_lt_upper_bound; lia|exact Ea]).
        assert (hex_digit c = Some (z mod 16)) as -> by (apply hex_lower; split; [apply N.mod_lt; discriminate|exact Ec]).
        rewrite (proj2 (IH r b' ltac:(lia)) (conj Er F')). f_equal. f_equal. pose proof (N.div_mod z 16). lia.
Qed.

(** The tool sends a mint request exactly if the owner is the text of a principal and the subaccount, if given, is the
    hexadecimal text (in any letter case) of 32 bytes; the request names that account. *)
Theorem C78_account owner sub memo url entries r :
  cli_mint owner sub memo url entries = Some r ->
  owner = principal_text (acc_owner (mr_owner r)) /\ (length (acc_owner (mr_owner r)) <= 29)%nat /\
  match sub with
  | None => acc_sub (mr_owner r) = None
  | Some s => exists b, acc_sub (mr_owner r) = Some b /\ length b = 32%nat /\ Forall (fun x => x < 256) b /\ lowercase s = hex_text b
  end.
Proof.
  unfold cli_mint. destruct (principal_parse owner) as [p|] eqn:P; [|discriminate]. apply principal_parse_inv in P. destruct P as [-> L].
  destruct sub as [s|].
  - unfold parse_subaccount. destruct (hex_decode s) as [b|] eqn:E; [|discriminate]. apply hex_decode_inv in E. destruct E as [E F].
    destruct (nlen b =? 32) eqn:Z; [|discriminate]. apply N.eqb_eq in Z. intros [= <-]. cbn [mr_owner acc_owner acc_sub].
    splits; [reflexivity|exact L|]. exists b. splits; try assumption; [reflexivity|]. unfold nlen in Z. lia.
  - intros [= <-]. cbn. auto.
Qed.
Print Assumptions C78_account.

(** The texts are those everybody uses: checksum as fixed by the standard (check value of CRC-32), letters and digits of base32,
    a dash after every fifth of them and nowhere else; and the texts of well-known principals. *)
Fixpoint chars (s : string) : list Ascii.ascii := match s with EmptyString => [] | String c r => c :: chars r end.

Lemma dashed_format n l j c :
  (n <= 5)%nat -> Forall no_dash l -> chars (dashed n l) !! j = Some c ->
  c = Ascii.ascii_of_N 45 <-> exists q, j = (6 * q + n)%nat.
Proof.
  intros Hn F. revert n j Hn. induction F as [|x l Hx F IH]; intros n j Hn H; [discriminate H|].
  assert (Nx : x <> Ascii.ascii_of_N 45) by (intros ->; discriminate Hx).
  destruct n as [|n]; cbn [dashed chars] in H.
  - destruct j as [|[|j]]; cbn in H.
    + injection H as <-. split; [exists 0%nat; lia|reflexivity].
    + injection H as <-. split; [congruence|]. intros [q Q]. lia.
    + rewrite (IH 4%nat j ltac:(lia) H). split; intros [q Q]; [exists (S q); lia|]. destruct q as [|q]; [lia|]. exists q. lia.
  - destruct j as [|j]; cbn in H.
    + injection H as <-. split; [congruence|]. intros [q Q]. lia.
    + rewrite (IH n j ltac:(lia) H). split; intros [q Q]; exists q; lia.
Qed.

Lemma b32_digits (l : list bool) : Forall (fun c => (97 <= Ascii.N_of_ascii c <= 122) \/ (50 <= Ascii.N_of_ascii c <= 55)) (b32_bits l).
Proof.
  revert l. fix IH 1. intros [|a [|b [|c [|d [|e r]]]]]; [constructor|..]; (apply Forall_cons; split; [|try constructor; try apply IH]).
  all: repeat match goal with b : bool |- _ => destruct b end; vm_compute; first [left; split; discriminate|right; split; discriminate].
Qed.

Theorem C78_text_format p j c :
  chars (principal_text p) !! j = Some c ->
  if (j mod 6 =? 5)%nat then c = Ascii.ascii_of_N 45
  else (97 <= Ascii.N_of_ascii c <= 122) \/ (50 <= Ascii.N_of_ascii c <= 55).
Proof.
  intros H. unfold principal_text in H. set (l := b32_bits _) in H.
  assert (D : Forall no_dash l) by (unfold l; edestruct b32_bits_spec as (? & _ & X & _); exact X).
  pose proof (dashed_format 5 l j c ltac:(lia) D H) as E.
  destruct (Nat.eqb_spec (j mod 6) 5) as [M|M].
  - apply E. exists (j / 6)%nat. pose proof (Nat.div_mod j 6). lia.
  - assert (Nc : c <> Ascii.ascii_of_N 45).
    { intros X. apply E in X. destruct X as [q ->]. apply M. rewrite Nat.add_comm, Nat.mul_comm, Nat.mod_add by lia. reflexivity. }
    assert (In : c = Ascii.ascii_of_N 45 \/ c ∈ l).
    { clear -H. revert j H. generalize 5%nat. induction l as [|x l IH]; intros n j H; [discriminate H|].
      destruct n as [|n]; cbn [dashed chars] in H.
      - destruct j as [|[|j]]; cbn in H; [injection H as <-; auto|injection H as <-; right; left|].
        destruct (IH _ _ H); [auto|right; right; assumption].
      - destruct j as [|j]; cbn in H; [injection H as <-; right; left|]. destruct (IH _ _ H); [auto|right; right; assumption]. }
    destruct In as [In|In]; [contradiction|].
    pose proof (b32_digits (concat (map byte_bits (be32 (crc32 p) ++ p)))) as F. rewrite Forall_forall in F. apply F. exact In.
Qed.
Print Assumptions C78_text_format.

Theorem C78_known_texts :
  crc32 [49; 50; 51; 52; 53; 54; 55; 56; 57] = 3421780262 /\
  principal_text [] = "aaaaa-aa" /\ principal_text [4] = "2vxsx-fae" /\
  principal_text [0; 0; 0; 0; 0; 0; 0; 1; 1; 1] = "rrkah-fqaaa-aaaaa-aaaaq-cai" /\
  principal_text [0; 0; 0; 0; 0; 0; 0; 2; 1; 1] = "ryjl3-tyaaa-aaaaa-aaaba-cai".
Proof. vm_compute. repeat split; reflexivity. Qed.
Print Assumptions C78_known_texts.

Theorem C78_accepted p sub memo url entries :
  Forall (fun x => x < 256) p -> (length p <= 29)%nat ->
  (forall s, sub = Some s -> exists b, length b = 32%nat /\ Forall (fun x => x < 256) b /\ lowercase s = hex_text b) ->
  exists r, cli_mint (principal_text p) sub memo url entries = Some r /\ mr_memo r = string_bytes <$> memo /\
    (forall u, url = Some u -> mr_meta r = [("icrc97:metadata"%string, VArray [VText u])]) /\
    (url = None -> mr_meta r = mint_metadata entries).
Proof.
  intros F L S. unfold cli_mint. rewrite (principal_parse_text p F L).
  assert (E : exists o, match sub with Some s => Some <$> parse_subaccount s | None => Some None end = Some o).
  { destruct sub as [s|]; [|eauto]. destruct (S s eq_refl) as (b & Lb & Fb & E). unfold parse_subaccount.
    rewrite (proj2 (hex_decode_inv s b) (conj E Fb)). unfold nlen. rewrite Lb. cbn. eauto. }
  destruct E as [o ->]. eexists. split; [reflexivity|]. cbn [mr_memo mr_meta]. splits; [reflexivity| |].
  - intros u ->. reflexivity.
  - intros ->. reflexivity.
Qed.
Print Assumptions C78_accepted.

Example C78_example :
  (exists r, cli_mint "aaaaa-aa" (Some (hex_text (repeat 171 32%nat))) (Some "hi"%string) None ["a:1"]%string = Some r /\
     mr_owner r = mkAcc [] (Some (repeat 171 32%nat)) /\ mr_memo r = Some [104; 105] /\ mr_meta r = [("a"%string, VNat 1)]) /\
  cli_mint "aaaaa-aa" (Some "ab"%string) None None [] = None /\ cli_mint "aaaaa-ab" None None None [] = None.
Proof. splits; try (vm_compute; reflexivity). eexists. vm_compute. splits; reflexivity. Qed.
