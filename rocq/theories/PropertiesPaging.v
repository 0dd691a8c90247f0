(** C145 - C147: reading page by page while the canister works on. *)
From Verif Require Import Base ModelPrincipal ModelState ModelIcrc7 ModelIcrc37 ModelManagement ModelLifecycle
  ModelQueries ModelStep ProofsItems ProofsManage ProofsMicro Spec ProofsCore ProofsOwner ProofsApprovals ProofsQueries
  Scenario PropertiesQueries PropertiesReads ProofsLock ModelIndex SpecIndex ProofsIndex PropertiesIndex.

(** ** Pages of changing lists *)
Lemma position_gt_drop p L : StronglySorted N.lt L -> forall t, t ∈ drop (position_gt p L) L <-> t ∈ L /\ p < t.
Proof.
  intros S. induction S as [|x L S IH F]; intros t; simpl.
  - split; [intros H; apply elem_of_nil in H; contradiction|intros [H _]; exact H].
  - destruct (p <? x) eqn:E.
    + apply N.ltb_lt in E. simpl. split; [|tauto]. intros H. split; [exact H|]. apply elem_of_cons in H.
      destruct H as [->|H]; [exact E|]. rewrite Forall_forall in F. specialize (F t H). lia.
    + apply N.ltb_ge in E. simpl. rewrite IH. split.
      * intros [A B]. split; [right; exact A|exact B].
      * intros [A B]. apply elem_of_cons in A. destruct A as [->|A]; [lia|]. split; [exact A|exact B].
Qed.

Lemma sorted_drop (L : list N) n : StronglySorted N.lt L -> StronglySorted N.lt (drop n L).
Proof.
  revert n. induction L as [|x L IH]; intros n S; [destruct n; exact S|]. destruct n; [exact S|]. simpl. apply IH.
  inversion S; assumption.
Qed.
Lemma sorted_take (L : list N) n : StronglySorted N.lt L -> StronglySorted N.lt (take n L).
Proof.
  revert n. induction L as [|x L IH]; intros n S; [destruct n; constructor|]. destruct n; [constructor|]. simpl.
  inversion S as [|? ? S' F]; subst. constructor; [apply IH, S'|]. rewrite Forall_forall in *. intros y Hy. apply F.
  rewrite <- (take_drop n L). apply elem_of_app. left. exact Hy.
Qed.
Lemma sorted_last (L : list N) x : StronglySorted N.lt L -> last L = Some x -> forall y, y ∈ L -> y <= x.
Proof.
  intros S. induction S as [|z L S IH F]; intros E y Hy; [discriminate|]. destruct L as [|w L].
  - injection E as <-. apply elem_of_list_singleton in Hy. lia.
  - change (last (z :: w :: L)) with (last (w :: L)) in E. apply elem_of_cons in Hy. destruct Hy as [->|Hy]; [|apply IH; assumption].
    rewrite Forall_forall in F. assert (I : x ∈ w :: L) by (apply last_Some in E; destruct E as [l' ->]; apply elem_of_app; right; left).
    specialize (F x I). lia.
Qed.
Lemma sorted_app_lt (l m : list N) x : StronglySorted N.lt l -> StronglySorted N.lt m -> (forall y, y ∈ l -> y <= x) ->
  (forall y, y ∈ m -> x < y) -> StronglySorted N.lt (l ++ m).
Proof.
  intros S Sm Hl Hm. induction S as [|z l S IH F]; [exact Sm|]. simpl. constructor.
  - apply IH. intros y Hy. apply Hl. right. exact Hy.
  - rewrite Forall_forall in *. intros y Hy. apply elem_of_app in Hy. destruct Hy as [Hy|Hy]; [apply F, Hy|].
    specialize (Hm y Hy). assert (z <= x) by (apply Hl; left). lia.
Qed.

Lemma page_spec ids prev n : NoDup ids -> 1 <= n ->
  let p := default 0 prev in let page := page_of ids prev n in
  StronglySorted N.lt page /\ (forall t, t ∈ page -> t ∈ ids /\ p < t) /\
  (forall t, t ∈ ids -> p < t -> t ∈ page \/ exists x, last page = Some x /\ x < t).
Proof.
  intros ND Hn p page. unfold page, page_of. rewrite take_n_take. fold p.
  set (L := merge_sort N.le ids). assert (S : StronglySorted N.lt L) by (apply sorted_lt, ND).
  assert (M : forall t, t ∈ L <-> t ∈ ids) by (intros t; unfold L; rewrite merge_sort_Permutation; reflexivity).
  set (R := drop (position_gt p L) L). assert (SR : StronglySorted N.lt R) by (apply sorted_drop, S).
  assert (MR : forall t, t ∈ R <-> t ∈ L /\ p < t) by (intros t; apply position_gt_drop, S).
  split; [apply sorted_take, SR|]. split.
  - intros t Ht. assert (I : t ∈ R) by (rewrite <- (take_drop (N.to_nat n) R); apply elem_of_app; left; exact Ht).
    apply MR in I. rewrite M in I. exact I.
  - intros t Ht Hp. assert (I : t ∈ R) by (apply MR; rewrite M; split; assumption).
    destruct (decide (t ∈ take (N.to_nat n) R)) as [|No]; [left; assumption|right].
    assert (Id : t ∈ drop (N.to_nat n) R).
    { rewrite <- (take_drop (N.to_nat n) R) in I. apply elem_of_app in I. destruct I; [contradiction|assumption]. }
    destruct (last (take (N.to_nat n) R)) as [x|] eqn:E.
    + exists x. split; [reflexivity|]. apply last_Some in E. destruct E as [l' E].
      rewrite <- (take_drop (N.to_nat n) R), E, <- app_assoc in SR. clear -SR Id. induction l' as [|y l' IH]; simpl in SR.
      * inversion SR as [|? ? _ F]; subst. rewrite Forall_forall in F. apply F, Id.
      * inversion SR; subst. apply IH. assumption.
    + apply last_None in E. assert (length (take (N.to_nat n) R) = 0%nat) by (rewrite E; reflexivity).
      rewrite take_length in H. assert (length R = 0%nat) by lia. destruct R; [apply elem_of_nil in I; contradiction|discriminate].
Qed.

(** The client reads the page with [f] further calls in reserve from the list [ids f]. *)
Lemma walk_changing (ids : nat -> list N) (n : nat -> N) (q : nat -> option N -> option (list N)) :
  (forall f prev, q f prev = Some (page_of (ids f) prev (n f))) -> (forall f, NoDup (ids f)) -> (forall f, 1 <= n f) ->
  forall M fuel prev, (forall f t, t ∈ ids f -> t < M) -> (N.to_nat (M - default 0%N prev) < fuel)%nat ->
  exists l, walk q (fun x => x) fuel prev = Some l /\ StronglySorted N.lt l /\
    (forall t, t ∈ l -> default 0 prev < t /\ exists f, (f < fuel)%nat /\ t ∈ ids f) /\
    (forall t, default 0 prev < t -> (forall f, (f < fuel)%nat -> t ∈ ids f) -> t ∈ l).
Proof.
  intros Hq ND Hn M fuel. induction fuel as [|f IH]; intros prev HM Hf; [lia|].
  cbn [walk]. rewrite Hq. destruct (page_spec (ids f) prev (n f) (ND f) (Hn f)) as (S & I & C).
  set (page := page_of (ids f) prev (n f)) in *. destruct (last page) as [x|] eqn:E.
  - assert (Ix : x ∈ page) by (apply last_Some in E; destruct E as [l' E]; rewrite E; apply elem_of_app; right; left).
    destruct (I x Ix) as [I1 I2]. pose proof (HM f x I1) as I3.
    destruct (IH (Some x) HM) as (l & W & Sl & A & B). { simpl. lia. }
    simpl in A, B. rewrite W. exists (page ++ l). split; [reflexivity|]. split; [|split].
    + apply (sorted_app_lt _ _ x); [exact S|exact Sl|apply (sorted_last _ _ S E)|]. intros y Hy. apply (A y Hy).
    + intros t Ht. apply elem_of_app in Ht. destruct Ht as [Ht|Ht].
      * destruct (I t Ht) as [J1 J2]. split; [exact J2|]. exists f. split; [lia|exact J1].
      * destruct (A t Ht) as [J1 (g & J2 & J3)]. split; [lia|]. exists g. split; [lia|exact J3].
    + intros t Hp Ht. apply elem_of_app. destruct (C t (Ht f ltac:(lia)) Hp) as [J|(y & Ey & Hy)]; [left; exact J|right].
      injection Ey as <-. apply B; [exact Hy|]. intros g Hg. apply Ht. lia.
  - exists []. split; [reflexivity|]. split; [constructor|]. split; [intros t Ht; apply elem_of_nil in Ht; contradiction|].
    intros t Hp Ht. destruct (C t (Ht f ltac:(lia)) Hp) as [J|(y & Ey & _)]; [|discriminate].
    apply last_None in E. rewrite E in J. exact J.
Qed.

(** ** C145

    A client asks for page after page; between two pages anything may happen.  [st f] is the state in which the page is
    answered after which [f] further calls are allowed, [M] a bound on the ids. *)
Definition stays (st : nat -> state) (fuel : nat) (P : state -> Prop) : Prop := forall f, (f < fuel)%nat -> P (st f).

Theorem C145_tokens st tk M fuel :
  (forall f, reachable (st f) /\ allowed (st f) tk /\ 1 <= asked (st f) tk) ->
  (forall f t, is_Some (owner_of (st f) t) -> t < M) -> (N.to_nat M < fuel)%nat ->
  exists l, walk (fun f prev => icrc7_tokens (st f) prev tk) (fun x => x) fuel None = Some l /\
    StronglySorted N.lt l /\
    (forall t, stays st fuel (fun s => is_Some (owner_of s t)) -> t ∈ l) /\
    (forall t, t ∈ l -> exists f, (f < fuel)%nat /\ is_Some (owner_of (st f) t)).
Proof.
  intros H HM Hf. unfold icrc7_tokens.
  destruct (walk_changing (fun f => map fst (map_to_list (tokens (st f)))) (fun f => page_size (st f) tk)
    (fun f prev => if take_ok (st f) tk then Some (page_of (map fst (map_to_list (tokens (st f)))) prev (page_size (st f) tk)) else None))
    with (M := M) (fuel := fuel) (prev := @None N) as (l & W & S & A & B).
  - intros f prev. destruct (H f) as (_ & Ha & _). apply take_ok_iff in Ha. rewrite Ha. reflexivity.
  - intros f. apply token_ids_spec.
  - intros f. apply page_size_pos, (H f).
  - intros f t Ht. apply (HM f), token_ids_spec, Ht.
  - simpl. lia.
  - exists l. split; [exact W|]. split; [exact S|]. simpl in A, B. split.
    + intros t Ht. apply B.
      * destruct fuel as [|f]; [lia|]. destruct (Ht f ltac:(lia)) as [o Ho]. rewrite owner_of_tokens in Ho.
        destruct (tokens (st f) !! t) eqn:E; [|discriminate]. pose proof (wf_lt _ (reachable_wf _ (proj1 (H f))) _ _ E). lia.
      * intros f Hg. apply token_ids_spec, Ht, Hg.
    + intros t Ht. destruct (A t Ht) as (_ & f & Hg & I). exists f. split; [exact Hg|]. apply token_ids_spec, I.
Qed.
Print Assumptions C145_tokens.

Theorem C145_tokens_of st a tk M fuel :
  (forall f, reachable (st f) /\ allowed (st f) tk /\ 1 <= asked (st f) tk) ->
  (forall f t, is_Some (owner_of (st f) t) -> t < M) -> (N.to_nat M < fuel)%nat ->
  exists l, walk (fun f prev => icrc7_tokens_of (st f) a prev tk) (fun x => x) fuel None = Some l /\
    StronglySorted N.lt l /\
    (forall t, stays st fuel (fun s => exists o, owner_of s t = Some o /\ akey o = akey a) -> t ∈ l) /\
    (forall t, t ∈ l -> exists f o, (f < fuel)%nat /\ owner_of (st f) t = Some o /\ akey o = akey a).
Proof.
  intros H HM Hf. unfold icrc7_tokens_of.
  destruct (walk_changing (fun f => tokens_ids_of_account (st f) a) (fun f => page_size (st f) tk)
    (fun f prev => if take_ok (st f) tk then Some (page_of (tokens_ids_of_account (st f) a) prev (page_size (st f) tk)) else None))
    with (M := M) (fuel := fuel) (prev := @None N) as (l & W & S & A & B).
  - intros f prev. destruct (H f) as (_ & Ha & _). apply take_ok_iff in Ha. rewrite Ha. reflexivity.
  - intros f. apply account_ids_spec.
  - intros f. apply page_size_pos, (H f).
  - intros f t Ht. apply account_ids_spec in Ht. destruct Ht as (o & Ht & _). apply (HM f). rewrite Ht. eauto.
  - simpl. lia.
  - exists l. split; [exact W|]. split; [exact S|]. simpl in A, B. split.
    + intros t Ht. apply B.
      * destruct fuel as [|f]; [lia|]. destruct (Ht f ltac:(lia)) as (o & Ho & _). rewrite owner_of_tokens in Ho.
        destruct (tokens (st f) !! t) eqn:E; [|discriminate]. pose proof (wf_lt _ (reachable_wf _ (proj1 (H f))) _ _ E). lia.
      * intros f Hg. apply account_ids_spec, Ht, Hg.
    + intros t Ht. destruct (A t Ht) as (_ & f & Hg & I). apply account_ids_spec in I. destruct I as (o & I1 & I2).
      exists f, o. split; [exact Hg|]. split; assumption.
Qed.
Print Assumptions C145_tokens_of.

(** Between the first page and the second alice burns token 1 and a fourth token is minted for bob. *)
Definition later_h : history := [(from_ alice 3000000000, OBurn 1); (from_ admin 3000000001, OMint [mkMint (acct bob) None []])].
Definition reading (f : nat) : state := if (f <? 9)%nat then run (demo2_h ++ later_h) demo0 else demo2.
Example C145_example :
  (forall f, reachable (reading f) /\ allowed (reading f) (Some 1) /\ 1 <= asked (reading f) (Some 1)) /\
  (forall f t, is_Some (owner_of (reading f) t) -> t < 5) /\
  walk (fun f prev => icrc7_tokens (reading f) prev (Some 1)) (fun x => x) 10 None = Some [1; 2; 3; 4] /\
  walk (fun f prev => icrc7_tokens_of (reading f) (acct alice) prev (Some 1)) (fun x => x) 10 None = Some [1; 2] /\
  stays reading 10 (fun s => is_Some (owner_of s 2)) /\ owner_of (reading 8) 1 = None /\ owner_of (reading 9) 4 = None.
Proof.
  assert (R : forall f, reading f = run (demo2_h ++ later_h) demo0 \/ reading f = demo2).
  { intros f. unfold reading. destruct (f <? 9)%nat; auto. }
  assert (T : forall s t, is_Some (owner_of s t) -> Forall (fun t => t < 5) (map fst (map_to_list (tokens s))) -> t < 5).
  { intros s t Ho F. rewrite Forall_forall in F. apply F, token_ids_spec, Ho. }
  split; [|split; [|split; [|split; [|split; [|split]]]]].
  - intros f. destruct (R f) as [-> | ->]; (split; [apply demo_reachable|]; split; [vm_compute; discriminate|vm_compute; discriminate]).
  - intros f t Ho. apply (T _ _ Ho). destruct (R f) as [-> | ->]; vm_compute; repeat constructor.
  - vm_compute. reflexivity.
  - vm_compute. reflexivity.
  - intros f _. destruct (R f) as [-> | ->]; vm_compute; eauto.
  - vm_compute. reflexivity.
  - vm_compute. reflexivity.
Qed.

(** ** C146

    The blocks below [n] that are about every filter, ascending. *)
Definition upto (L : chain) (f : list ikey) (n : N) : list N := filter (fun i => Forall (fun k => k ∈ keys_of (L i)) f) (range 0 n).

Lemma upto_elem L f n i : i ∈ upto L f n <-> i < n /\ forall k, k ∈ f -> about (L i) k.
Proof.
  unfold upto. rewrite elem_of_list_filter, elem_of_range, Forall_forall. split.
  - intros [A B]. split; [lia|]. intros k Hk. apply keys_about, A, Hk.
  - intros [A B]. split; [|lia]. intros k Hk. apply keys_about, B, Hk.
Qed.
Lemma upto_sorted L f n : StronglySorted N.lt (upto L f n).
Proof.
  unfold upto. generalize (sorted_range 0 n). generalize (range 0 n). induction 1 as [|x l S IH F]; [constructor|].
  rewrite filter_cons. destruct (decide _); [|exact IH]. constructor; [exact IH|]. rewrite Forall_forall in *.
  intros y Hy. apply F. apply elem_of_list_filter in Hy. apply Hy.
Qed.
Lemma upto_prefix L f n n' : n <= n' -> upto L f n = firstn (length (upto L f n)) (upto L f n').
Proof.
  intros H. unfold upto. rewrite (range_app 0 n n') by lia. rewrite filter_app, take_app. reflexivity.
Qed.
Lemma sorted_same (l m : list N) : StronglySorted N.le l -> NoDup l -> StronglySorted N.lt m -> (forall i, i ∈ l <-> i ∈ m) -> l = m.
Proof.
  intros Sl Nl Sm Hi. apply (StronglySorted_unique N.le); [exact Sl|apply sorted_lt_le, Sm|].
  apply NoDup_Permutation; [exact Nl|apply sorted_lt_NoDup, Sm|exact Hi].
Qed.

(** No block names one of the accounts asked for in two fields. *)
Definition names_once (L : chain) (f : list ikey) : Prop :=
  forall a i ty x y, KAccount a ∈ f -> has_type (L i) ty -> x ∈ roles ty -> y ∈ roles ty -> names (L i) x a -> names (L i) y a -> x = y.

Lemma page_at L h e a n f so h2 bs tot : fair L 0 (h ++ (e, IGet a n f so) :: h2) istart -> no_overlap h istart ->
  call_answer h e (IGet a n f so) h2 bs tot -> f <> [] -> a + n < two32 -> so <> Some true -> names_once L f ->
  bs = values L (firstn (N.to_nat n) (skipn (N.to_nat a) (upto L f (istatus (irun h istart))))).
Proof.
  intros F No An Hf Hb Hso Hn. destruct (C58_filtered_partial _ _ _ _ _ _ _ _ _ _ F An Hf Hb) as (all & S & I & Nd & E).
  apply fair_app in F. destruct F as [F _]. destruct (C55_index_exact L h F No) as (X & _ & _).
  assert (all = upto L f (istatus (irun h istart))) as <-.
  { apply sorted_same; [exact S| |apply upto_sorted|].
    - apply Nd. intros k Hk. apply (C56_once_partial L h k F No). destruct k as [ac| |]; auto.
      intros i ty x y _ T Hx Hy N1 N2. exact (Hn ac i ty x y Hk T Hx Hy N1 N2).
    - intros i. rewrite I, upto_elem. split.
      + intros J. destruct f as [|k f]; [congruence|]. split; [apply (X k i), J; left|]. intros k' Hk'. apply (X k' i), J, Hk'.
      + intros [J1 J2] k Hk. apply X. split; [exact J1|apply J2, Hk]. }
  rewrite E. destruct so as [[]|]; [congruence|reflexivity|reflexivity].
Qed.

Lemma full_pages {A} (l : list A) n (c : nat -> nat) m :
  (forall j, (j < m)%nat -> length (firstn n (skipn (j * n) (firstn (c j) l))) = n) ->
  concat (map (fun j => firstn n (skipn (j * n) (firstn (c j) l))) (seq 0 m)) = firstn (m * n) l /\
  (m * n <= length l)%nat.
Proof.
  induction m as [|m IH]; intros H; [split; [reflexivity|simpl; lia]|].
  destruct IH as [IH1 IH2]; [intros; apply H; lia|]. specialize (H m ltac:(lia)).
  rewrite seq_S, map_app, concat_app, IH1. cbn [map concat]. rewrite app_nil_r. simpl (0 + m)%nat.
  rewrite skipn_firstn_comm, firstn_firstn in H |- *. rewrite firstn_length, skipn_length in H.
  destruct (Nat.eq_dec n 0) as [->|Hn].
  { rewrite !Nat.mul_0_r in *. simpl. split; [reflexivity|lia]. }
  replace (n `min` (c m - m * n))%nat with n by lia. split; [|simpl; lia].
  rewrite <- (firstn_skipn (m * n) (firstn (S m * n) l)). f_equal.
  - rewrite firstn_firstn. f_equal. simpl. lia.
  - rewrite skipn_firstn_comm. f_equal. simpl. lia.
Qed.

(** The pages 0, n, 2n, ... asked for at any times; page [j] is asked for when [st j] blocks are in the index.  Every page but
    the last is full. *)
Theorem C146_growing_partial L n f (answers : list (list block)) (st : nat -> N) high :
  f <> [] -> 1 <= n -> n * nlen answers < two32 -> names_once L f -> (forall j, st j <= high) ->
  (forall j bs, answers !! j = Some bs -> exists h e so h2 tot,
     fair L 0 (h ++ (e, IGet (N.of_nat j * n) n f so) :: h2) istart /\ no_overlap h istart /\ so <> Some true /\
     call_answer h e (IGet (N.of_nat j * n) n f so) h2 bs tot /\ istatus (irun h istart) = st j) ->
  (forall j bs, answers !! j = Some bs -> (S j < length answers)%nat -> nlen bs = n) ->
  exists l, concat answers = values L l /\ StronglySorted N.lt l /\
    (forall i, i ∈ l -> i < high /\ forall k, k ∈ f -> about (L i) k) /\
    (forall i, i ∈ upto L f high -> i ∉ l -> forall x, x ∈ l -> x < i) /\
    (forall bs, last answers = Some bs -> nlen bs < n ->
       forall i, i < st (length answers - 1)%nat -> (forall k, k ∈ f -> about (L i) k) -> i ∈ l).
Proof.
  intros Hf Hn Hb Ho Hst Ha Hfull.
  set (A := upto L f high). set (w := N.to_nat n).
  assert (Hc : exists c : nat -> nat, forall j, upto L f (st j) = firstn (c j) A).
  { exists (fun j => length (upto L f (st j))). intros j. apply upto_prefix, Hst. }
  destruct Hc as [c Hc].
  set (page := fun j => firstn w (skipn (j * w) (firstn (c j) A))).
  assert (Hp : forall j bs, answers !! j = Some bs -> bs = values L (page j)).
  { intros j bs Hj. destruct (Ha j bs Hj) as (h & e & so & h2 & tot & F & No & Hso & An & Es).
    assert (Hjlt : (j < length answers)%nat) by (eapply lookup_lt_Some; eauto).
    assert (Hbj : N.of_nat j * n + n < two32).
    { unfold nlen in Hb. assert (X : (N.of_nat j + 1) * n <= n * N.of_nat (length answers)) by nia. lia. }
    rewrite (page_at _ _ _ _ _ _ _ _ _ _ F No An Hf Hbj Hso Ho), Es, Hc. unfold page, w.
    replace (N.to_nat (N.of_nat j * n)) with (j * N.to_nat n)%nat by lia. reflexivity. }
  assert (Eans : answers = map (fun j => values L (page j)) (seq 0 (length answers))).
  { apply list_eq. intros j. rewrite list_lookup_fmap. destruct (answers !! j) as [bs|] eqn:Ej.
    - pose proof (lookup_lt_Some _ _ _ Ej) as Hlt. rewrite (Hp j bs Ej), lookup_seq_lt by exact Hlt. reflexivity.
    - apply lookup_ge_None in Ej. rewrite lookup_seq_ge by exact Ej. reflexivity. }
  assert (Ecat : concat answers = values L (concat (map page (seq 0 (length answers))))).
  { rewrite Eans at 1. unfold values. rewrite concat_map, map_map. reflexivity. }
  (* what was read is an initial segment *)
  assert (Hpre : exists r, concat (map page (seq 0 (length answers))) = firstn r A /\
    (forall bs, last answers = Some bs -> nlen bs < n -> (c (length answers - 1) `min` length A <= r)%nat)).
  { destruct (length answers) as [|m] eqn:Em.
    - exists 0%nat. split; [reflexivity|]. intros bs Hl. destruct answers; discriminate.
    - assert (Hfl : forall j, (j < m)%nat -> length (page j) = w).
      { intros j Hj. destruct (answers !! j) as [bs|] eqn:Ej.
        - pose proof (Hfull j bs Ej ltac:(lia)) as Hl. rewrite (Hp j bs Ej) in Hl. unfold values, nlen in Hl. rewrite map_length in Hl.
          unfold w. lia.
        - apply lookup_ge_None in Ej. lia. }
      destruct (full_pages A w c m Hfl) as [E1 E2]. fold page in E1.
      rewrite seq_S, map_app, concat_app, E1. cbn [map concat]. rewrite app_nil_r. simpl (0 + m)%nat.
      exists (m * w + (w `min` (c m - m * w)))%nat. split.
      + unfold page. rewrite skipn_firstn_comm, firstn_firstn.
        rewrite <- (firstn_skipn (m * w) (firstn (m * w + _) A)). f_equal.
        * rewrite firstn_firstn. f_equal. lia.
        * rewrite skipn_firstn_comm. f_equal. lia.
      + intros bs Hl Hsh. rewrite last_lookup, Em in Hl. simpl in Hl. rewrite (Hp m bs Hl) in Hsh.
        unfold values, nlen in Hsh. rewrite map_length in Hsh. unfold page in Hsh.
        rewrite firstn_length, skipn_length, firstn_length in Hsh. replace (S m - 1)%nat with m by lia. unfold w in *. lia. }
  destruct Hpre as (r & Er & Hlast).
  assert (SA : StronglySorted N.lt A) by apply upto_sorted.
  assert (MA : forall i, i ∈ A <-> i < high /\ forall k, k ∈ f -> about (L i) k) by (intros i; apply upto_elem).
  exists (firstn r A). rewrite Ecat, Er. split; [reflexivity|]. split; [apply sorted_take, SA|]. split; [|split].
  - intros i Hi. apply MA. rewrite <- (firstn_skipn r A). apply elem_of_app. left. exact Hi.
  - intros i Hi Hni x Hx. fold A in Hi. rewrite <- (firstn_skipn r A) in Hi, SA. apply elem_of_app in Hi. destruct Hi as [Hi|Hi]; [contradiction|].
    clear -SA Hi Hx. induction (firstn r A) as [|y l IH]; [apply elem_of_nil in Hx; contradiction|].
    simpl in SA. inversion SA as [|? ? S F]; subst. apply elem_of_cons in Hx. destruct Hx as [->|Hx]; [|apply IH; assumption].
    rewrite Forall_forall in F. apply F, elem_of_app. right. exact Hi.
  - intros bs Hl Hsh i Hi Hk. assert (J : i ∈ upto L f (st (length answers - 1)%nat)) by (apply upto_elem; split; assumption).
    rewrite Hc in J. specialize (Hlast bs Hl Hsh).
    replace (firstn (c (length answers - 1)%nat) A) with (firstn (c (length answers - 1)%nat `min` length A) A) in J.
    2: { destruct (Nat.le_gt_cases (c (length answers - 1)%nat) (length A)); [f_equal; lia|]. rewrite !firstn_all2 by lia. reflexivity. }
    replace (firstn r A) with (firstn (c (length answers - 1)%nat `min` length A) (firstn r A) ++ skipn (c (length answers - 1)%nat `min` length A) (firstn r A))
      by apply firstn_skipn.
    apply elem_of_app. left. rewrite firstn_firstn. replace (Nat.min _ r) with (c (length answers - 1)%nat `min` length A)%nat by lia. exact J.
Qed.
Print Assumptions C146_growing_partial.

(** Missing: a block that names the account twice is read twice, here on two pages. *)
Theorem C146_twice_refuted : exists L h, fair L 0 h istart /\ no_overlap h istart /\
  let k := [KAccount (p2, default_sub)] in
  snd (istep 30 (IGet 0 1 k None) (irun h istart)) = IBlocks (values L [0]) 1 /\
  snd (istep 30 (IGet 1 1 k None) (irun h istart)) = IBlocks (values L [0]) 1.
Proof.
  exists (fun i => chain1 (i + 3)), [(at_ 10 1, IUpdate); (at_ 11 1, IReply 0 (RLedger [] [(0, chain1 3)]))].
  split; [|split].
  - fair_step. fair_step; [|exact Logic.I].
    do 3 eexists. split; [reflexivity|]. split; [reflexivity|]. split; [|repeat constructor]. reflexivity.
  - do 2 overlap_step. exact Logic.I.
  - vm_compute. split; reflexivity.
Qed.
Print Assumptions C146_twice_refuted.

(** One mint is in the index when the first page is read, two when the others are. *)
Definition first_round : ihistory := firstn 2 rounds.
Example C146_example :
  let f := [KType "7mint"] in
  names_once chain1 f /\
  (fair chain1 0 (first_round ++ [(at_ 12 2, IGet (N.of_nat 0 * 1) 1 f None)]) istart /\ no_overlap first_round istart /\
   call_answer first_round (at_ 12 2) (IGet (N.of_nat 0 * 1) 1 f None) [] (values chain1 [0]) 2 /\
   istatus (irun first_round istart) = 2) /\
  (fair chain1 0 (rounds ++ [(at_ 30 3, IGet (N.of_nat 1 * 1) 1 f None)]) istart /\ no_overlap rounds istart /\
   call_answer rounds (at_ 30 3) (IGet (N.of_nat 1 * 1) 1 f None) [] (values chain1 [2]) 3 /\
   istatus (irun rounds istart) = 3) /\
  call_answer rounds (at_ 31 3) (IGet (N.of_nat 2 * 1) 1 f None) [] [] 3.
Proof.
  pose proof rounds_fair as F. pose proof rounds_no_overlap as No.
  assert (F1 : fair chain1 0 first_round istart).
  { change rounds with (first_round ++ skipn 2 rounds) in F. apply fair_app in F. apply F. }
  split; [|split; [|split]].
  - intros a i ty x y H. apply elem_of_list_singleton in H. discriminate.
  - split; [|split; [|split]].
    + apply fair_app. split; [exact F1|]. fair_step. exact Logic.I.
    + unfold first_round, rounds. simpl. do 2 overlap_step. exact Logic.I.
    + left. split; [reflexivity|vm_compute; reflexivity].
    + vm_compute. reflexivity.
  - split; [|split; [exact No|split]].
    + apply fair_app. split; [exact F|]. fair_step. exact Logic.I.
    + left. split; [reflexivity|vm_compute; reflexivity].
    + vm_compute. reflexivity.
  - left. split; [reflexivity|vm_compute; reflexivity].
Qed.

(** ** C147

    Uploads are read by their position in the iteration order of a hash map. *)
Theorem C147_steady_partial order s caller tk n k u p :
  (forall l, order l ≡ₚ l) -> holds s caller PReadUploads -> n = default 100 tk -> 1 <= n < two32 -> N.of_nat p < two32 ->
  order (map_to_list (files s)) !! p = Some (k, u) ->
  exists page, uploads_page order s caller n tk (N.of_nat p / n) = Some page /\ page !! k = Some (u_state u).
Proof.
  intros Ho Hh Hn Hb Hpb Hp. apply holds_iff in Hh. set (i := N.of_nat p / n).
  set (L := order (map_to_list (files s))) in *.
  assert (HL : L ≡ₚ map_to_list (files s)) by apply Ho.
  assert (ND : NoDup (map fst L)) by (rewrite HL; apply NoDup_fst_map_to_list).
  assert (Hdm : N.of_nat p = n * i + N.of_nat p mod n) by (apply N.div_mod; lia).
  assert (Hmod : N.of_nat p mod n < n) by (apply N.mod_lt; lia). rewrite N.mul_comm in Hdm.
  remember (N.of_nat p mod n) as r eqn:Er. clear Er. clearbody i.
  assert (Hi : i * n < two32) by lia.
  pose proof (lookup_lt_Some _ _ _ Hp) as Hlt.
  unfold uploads_page, get_all_uploads. rewrite Hh. eexists. split; [reflexivity|].
  assert (E1 : default 0 (usize_try (default 0 (if i =? 0 then None else Some (i * n)))) = i * n).
  { destruct (N.eqb_spec i 0) as [->|]; [reflexivity|]. simpl. unfold usize_try. destruct (N.ltb_spec (i * n) two32); [reflexivity|lia]. }
  assert (E2 : default 100 (usize_try (default 100 tk)) = n).
  { rewrite <- Hn. unfold usize_try. destruct (N.ltb_spec n two32); [reflexivity|lia]. }
  rewrite E1, E2. fold L. rewrite take_n_take.
  assert (E3 : skip_n (i * n) L = drop (N.to_nat (i * n)) L).
  { unfold skip_n, nlen. rewrite N.min_l by lia. reflexivity. }
  rewrite E3. apply elem_of_list_to_map_1.
  - rewrite map_map. simpl. change (NoDup (map fst (take (N.to_nat n) (drop (N.to_nat (i * n)) L)))).
    rewrite <- firstn_map, <- skipn_map. apply (sublist_NoDup _ (map fst L)); [|exact ND].
    etransitivity; [apply sublist_take|apply sublist_drop].
  - apply elem_of_list_fmap. exists (k, u). split; [reflexivity|].
    apply elem_of_list_lookup. exists (N.to_nat r). apply lookup_take_Some. rewrite lookup_drop.
    split; [|lia]. rewrite <- Hp. f_equal. lia.
Qed.
Print Assumptions C147_steady_partial.

(** Missing: positions change.  In whatever order the uploads are iterated, a reader of single uploads is shown one of two;
    when that one is cancelled before the second page is read, the other upload, present all the time, is never shown. *)
Definition two_h : history :=
  demo1_h ++ [(from_ admin 1, OInitUpload "a" 10); (from_ admin 2, OReply 0 (RInitOk carol));
              (from_ admin 3, OInitUpload "b" 10); (from_ admin 4, OReply 1 (RInitOk carol))].
Definition cancel_h (k : string) : history := [(from_ admin 5, OCancel k); (from_ admin 6, OReply 2 ROk)].
Theorem C147_cancelled_refuted order : (forall l, order l ≡ₚ l) ->
  exists x y s s', reachable s /\ reachable s' /\ s' = run (cancel_h x) s /\ holds s admin PReadUploads /\
    status s x = Some UInit /\ status s y = Some UInit /\ status s' x = None /\ status s' y = Some UInit /\
    uploads_page order s admin 1 (Some 1) 0 = Some {[x := UInit]} /\
    uploads_page order s' admin 1 (Some 1) 1 = Some ∅.
Proof.
  intros Ho. set (s := run two_h demo0).
  assert (R : reachable s) by apply demo_reachable.
  assert (R' : forall x, reachable (run (cancel_h x) s)).
  { intros x. unfold s. rewrite <- run_app. apply demo_reachable. }
  assert (H2 : forall x, x ∈ ["a"; "b"]%string -> uploads_page order (run (cancel_h x) s) admin 1 (Some 1) 1 = Some ∅).
  { intros x Hx. unfold uploads_page, get_all_uploads.
    assert (E : exists kv, order (map_to_list (files (run (cancel_h x) s))) = [kv]).
    { assert (El : length (map_to_list (files (run (cancel_h x) s))) = 1%nat).
      { apply elem_of_cons in Hx. destruct Hx as [->|Hx]; [vm_compute; reflexivity|].
        apply elem_of_list_singleton in Hx. subst x. vm_compute. reflexivity. }
      pose proof (Permutation_length (Ho (map_to_list (files (run (cancel_h x) s))))) as P. rewrite El in P.
      destruct (order _) as [|kv [|]]; try discriminate. eauto. }
    destruct E as [kv ->].
    replace (has_permission (run (cancel_h x) s) admin PReadUploads) with true.
    2: { apply elem_of_cons in Hx. destruct Hx as [->|Hx]; [vm_compute; reflexivity|].
         apply elem_of_list_singleton in Hx. subst x. vm_compute. reflexivity. }
    reflexivity. }
  assert (L0 : exists a b, map_to_list (files s) = [a; b] /\ u_state (snd a) = UInit /\ u_state (snd b) = UInit /\
     ((fst a = "a" /\ fst b = "b") \/ (fst a = "b" /\ fst b = "a"))%string).
  { vm_compute. do 2 eexists. split; [reflexivity|]. split; [reflexivity|]. split; [reflexivity|]. vm_compute. auto. }
  destruct L0 as (a & b & EL & Ua & Ub & Names).
  pose proof (Ho (map_to_list (files s))) as P. rewrite EL in P. apply Permutation_sym, Permutation_length_2_inv in P.
  assert (H1 : forall kv r, order (map_to_list (files s)) = kv :: r -> u_state (snd kv) = UInit ->
     uploads_page order s admin 1 (Some 1) 0 = Some {[fst kv := UInit]}).
  { intros kv r E U. unfold uploads_page, get_all_uploads. rewrite E.
    replace (has_permission s admin PReadUploads) with true by (vm_compute; reflexivity). rewrite take_n_take, <- U. reflexivity. }
  assert (Hh : holds s admin PReadUploads) by (apply holds_iff; vm_compute; reflexivity).
  assert (G : forall x y, ((x = "a" /\ y = "b") \/ (x = "b" /\ y = "a"))%string -> uploads_page order s admin 1 (Some 1) 0 = Some {[x := UInit]} ->
    exists x y s s', reachable s /\ reachable s' /\ s' = run (cancel_h x) s /\ holds s admin PReadUploads /\
    status s x = Some UInit /\ status s y = Some UInit /\ status s' x = None /\ status s' y = Some UInit /\
    uploads_page order s admin 1 (Some 1) 0 = Some {[x := UInit]} /\
    uploads_page order s' admin 1 (Some 1) 1 = Some ∅).
  { intros x y Hxy Hx. exists x, y, s, (run (cancel_h x) s). split; [exact R|]. split; [apply R'|]. split; [reflexivity|].
    split; [exact Hh|]. destruct Hxy as [[-> ->]|[-> ->]].
    - split; [vm_compute; reflexivity|]. split; [vm_compute; reflexivity|]. split; [vm_compute; reflexivity|].
      split; [vm_compute; reflexivity|]. split; [exact Hx|]. apply H2. left.
    - split; [vm_compute; reflexivity|]. split; [vm_compute; reflexivity|]. split; [vm_compute; reflexivity|].
      split; [vm_compute; reflexivity|]. split; [exact Hx|]. apply H2. right. left. }
  rewrite EL in H1. destruct P as [P|P].
  - apply (G (fst a) (fst b)); [exact Names|]. apply (H1 a [b] P Ua).
  - apply (G (fst b) (fst a)); [tauto|]. apply (H1 b [a] P Ub).
Qed.
Print Assumptions C147_cancelled_refuted.

Example C147_example :
  status (run two_h demo0) "a" = Some UInit /\ status (run two_h demo0) "b" = Some UInit /\
  status (run (two_h ++ cancel_h "a") demo0) "a" = None /\ status (run (two_h ++ cancel_h "a") demo0) "b" = Some UInit /\
  exists kv, reverse (map_to_list (files (run two_h demo0))) !! 1%nat = Some kv /\
    uploads_page reverse (run two_h demo0) admin 1 (Some 1) 1 = Some {[fst kv := UInit]}.
Proof.
  split; [vm_compute; reflexivity|]. split; [vm_compute; reflexivity|]. split; [vm_compute; reflexivity|].
  split; [vm_compute; reflexivity|]. eexists. split; [vm_compute; reflexivity|vm_compute; reflexivity].
Qed.
