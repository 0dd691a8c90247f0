(** Facts about the index canister: ranges, chunks, the invariant of waiting tasks, and the content of the index. *)
From Verif Require Import Base ModelPrincipal ModelState ModelIndex SpecIndex ProofsPrincipal.

(** ** Ranges *)
Lemma elem_of_count_up n : forall a i, i ∈ count_up a n <-> a <= i < a + N.of_nat n.
Proof.
  induction n as [|n IH]; intros a i; simpl.
  - rewrite elem_of_nil. lia.
  - rewrite elem_of_cons, IH. lia.
Qed.
Lemma elem_of_range a b i : i ∈ range a b <-> a <= i < b.
Proof. unfold range. rewrite elem_of_count_up. lia. Qed.
Lemma length_count_up n : forall a, length (count_up a n) = n.
Proof. induction n; intros; simpl; [|rewrite IHn]; reflexivity. Qed.
Lemma nlen_range a b : nlen (range a b) = b - a.
Proof. unfold nlen, range. rewrite length_count_up. lia. Qed.
Lemma count_up_app n m : forall a, count_up a (n + m) = count_up a n ++ count_up (a + N.of_nat n) m.
Proof.
  induction n as [|n IH]; intros a.
  - simpl. f_equal. lia.
  - simpl. rewrite IH. do 2 f_equal. f_equal. lia.
Qed.
Lemma range_app a b c : a <= b -> b <= c -> range a c = range a b ++ range b c.
Proof.
  intros H1 H2. unfold range. replace (N.to_nat (c - a)) with (N.to_nat (b - a) + N.to_nat (c - b))%nat by lia.
  rewrite count_up_app. do 2 f_equal. lia.
Qed.
Lemma range_nil a b : b <= a -> range a b = [].
Proof. intros H. unfold range. replace (N.to_nat (b - a)) with 0%nat by lia. reflexivity. Qed.
Lemma range_cons a b : a < b -> range a b = a :: range (a + 1) b.
Proof. intros H. unfold range. replace (N.to_nat (b - a)) with (S (N.to_nat (b - (a + 1)))) by lia. reflexivity. Qed.
Lemma range_snoc a b : a <= b -> range a (b + 1) = range a b ++ [b].
Proof. intros H. rewrite (range_app a b) by lia. f_equal. rewrite range_cons, range_nil by lia. reflexivity. Qed.
Lemma range_one a : range a (a + 1) = [a].
Proof. rewrite range_cons, range_nil by lia. reflexivity. Qed.
Lemma sorted_count_up n : forall a, StronglySorted N.lt (count_up a n).
Proof.
  induction n as [|n IH]; intros a; simpl; constructor; auto.
  apply Forall_forall. intros x Hx. apply elem_of_count_up in Hx. lia.
Qed.
Lemma sorted_range a b : StronglySorted N.lt (range a b).
Proof. apply sorted_count_up. Qed.
Lemma sorted_lt_le l : StronglySorted N.lt l -> StronglySorted N.le l.
Proof.
  induction 1 as [|x l H IH F]; constructor; auto. eapply Forall_impl; [exact F|]. simpl. intros; lia.
Qed.
Lemma sorted_lt_NoDup l : StronglySorted N.lt l -> NoDup l.
Proof.
  induction 1 as [|x l H IH F]; constructor; auto. rewrite Forall_forall in F. intros I. apply F in I. lia.
Qed.
Lemma NoDup_range a b : NoDup (range a b).
Proof. apply sorted_lt_NoDup, sorted_range. Qed.

(** ** Chunks *)

(** A chunk covers the interval it is requested by. *)
Definition whole (c : list N) : Prop := c <> [] /\ c = range (hd 0 c) (hd 0 c + nlen c).

Lemma whole_range a b : a < b -> whole (range a b) /\ hd 0 (range a b) = a.
Proof.
  intros H. unfold whole. rewrite nlen_range. rewrite (range_cons a b H). simpl.
  split; [|reflexivity]. split; [discriminate|]. rewrite <- range_cons by exact H.
  replace (a + (b - a)) with b by lia. reflexivity.
Qed.

Lemma group_from_spec : forall l a x, a <= x ->
  StronglySorted N.le (x :: l) -> Forall (fun i => i < two64) (x :: l) ->
  concat (group_from (rev (range a (x + 1))) x l) = range a (x + 1) ++ l /\
  Forall whole (group_from (rev (range a (x + 1))) x l).
Proof.
  induction l as [|y l IH]; intros a x Ha Hs Hb; simpl.
  - rewrite rev_involutive, ?app_nil_r. split; [reflexivity|]. constructor; [|constructor].
    apply whole_range. lia.
  - inversion Hs as [|? ? Hs' Hf]; subst. inversion Hb as [|? ? Hx Hb']; subst. inversion Hf; subst.
    inversion Hb'; subst. destruct (N.eqb_spec y (add64 x 1)) as [E|E].
    + assert (y = x + 1) as ->.
      { unfold add64 in E. destruct (N.eq_dec (x + 1) two64) as [E2|E2].
        - rewrite E2, N.mod_same in E by discriminate. unfold two64 in *. lia.
        - rewrite N.mod_small in E by (unfold two64 in *; lia). exact E. }
      assert (Er : x + 1 :: rev (range a (x + 1)) = rev (range a (x + 1 + 1))).
      { rewrite (range_snoc a (x + 1)), rev_app_distr by lia. reflexivity. }
      rewrite Er. destruct (IH a (x + 1)) as [IH1 IH2]; [lia|assumption..|]. split; [|exact IH2].
      rewrite IH1, (range_snoc a (x + 1)) by lia. rewrite <- app_assoc. reflexivity.
    + rewrite rev_involutive. simpl.
      assert (Er : [y] = rev (range y (y + 1))) by (rewrite range_one; reflexivity).
      rewrite Er. destruct (IH y y) as [IH1 IH2]; [lia|assumption..|]. split.
      * rewrite IH1. rewrite (range_one y). reflexivity.
      * constructor; [|exact IH2]. apply whole_range. lia.
Qed.

Lemma group_spec l : StronglySorted N.le l -> Forall (fun i => i < two64) l ->
  concat (group_consecutive l) = l /\ Forall whole (group_consecutive l).
Proof.
  destruct l as [|x l]; intros Hs Hb; simpl; [split; [reflexivity|constructor]|].
  assert (Er : [x] = rev (range x (x + 1))) by (rewrite range_one; reflexivity).
  rewrite Er. destruct (group_from_spec l x x) as [H1 H2]; [lia|assumption..|]. split; [|exact H2].
  rewrite H1, range_one. reflexivity.
Qed.

Lemma ids_of_cons a n l : ids_of ((a, n) :: l) = range a (a + n) ++ ids_of l.
Proof. reflexivity. Qed.
Lemma ids_of_app l m : ids_of (l ++ m) = ids_of l ++ ids_of m.
Proof. unfold ids_of. rewrite map_app, concat_app. reflexivity. Qed.

Lemma ids_of_whole l : Forall whole l -> ids_of (map chunk_request l) = concat l.
Proof.
  induction 1 as [|c l [Hn Hc] H IH]; [reflexivity|]. simpl map. unfold chunk_request at 1. rewrite ids_of_cons, IH.
  rewrite <- Hc. reflexivity.
Qed.

Lemma merge_sort_sorted l : StronglySorted N.le (merge_sort N.le l).
Proof. apply StronglySorted_merge_sort; apply _. Qed.

Lemma fetch_ids c ids : Forall (fun i => i < two64) ids ->
  map fst (cached_blocks c ids) ++ ids_of (chunk_requests c ids) ≡ₚ ids.
Proof.
  intros Hb. unfold chunk_requests.
  assert (Hu : Forall (fun i => i < two64) (merge_sort N.le (uncached_ids c ids))).
  { rewrite merge_sort_Permutation. apply Forall_forall. intros i Hi. apply elem_of_list_filter in Hi.
    rewrite Forall_forall in Hb. apply Hb, Hi. }
  destruct (group_spec _ (merge_sort_sorted _) Hu) as [G1 G2].
  rewrite (ids_of_whole _ G2), G1, merge_sort_Permutation. clear.
  unfold cached_blocks, uncached_ids. induction ids as [|i ids IH]; [reflexivity|]. simpl.
  rewrite filter_cons. destruct (try_get_value c i) as [v|] eqn:E.
  - rewrite decide_False by discriminate. simpl. constructor. exact IH.
  - rewrite decide_True by reflexivity. simpl. rewrite <- Permutation_middle. constructor. exact IH.
Qed.

(** Chunks are as long as possible. *)
Definition chunk_end (c : list N) : N := hd 0 c + nlen c.

Lemma group_from_maximal : forall l a x, a <= x ->
  StronglySorted N.lt (x :: l) -> Forall (fun i => i < two64) (x :: l) ->
  Forall (fun c => chunk_end c ∉ range a (x + 1) ++ l) (group_from (rev (range a (x + 1))) x l).
Proof.
  induction l as [|y l IH]; intros a x Ha Hs Hb; simpl.
  - rewrite rev_involutive. constructor; [|constructor]. unfold chunk_end. rewrite nlen_range, app_nil_r.
    rewrite (proj2 (whole_range a (x + 1) ltac:(lia))). rewrite elem_of_range. lia.
  - inversion Hs as [|? ? Hs' Hf]; subst. inversion Hb as [|? ? Hx Hb']; subst. inversion Hf as [|? ? Hxy Hf']; subst.
    inversion Hb' as [|? ? Hy Hb'']; subst. destruct (N.eqb_spec y (add64 x 1)) as [E|E].
    + assert (y = x + 1) as ->.
      { unfold add64 in E. destruct (N.eq_dec (x + 1) two64) as [E2|E2].
        - rewrite E2, N.mod_same in E by discriminate. unfold two64 in *. lia.
        - rewrite N.mod_small in E by (unfold two64 in *; lia). exact E. }
      assert (Er : x + 1 :: rev (range a (x + 1)) = rev (range a (x + 1 + 1))).
      { rewrite (range_snoc a (x + 1)), rev_app_distr by lia. reflexivity. }
      rewrite Er. specialize (IH a (x + 1) ltac:(lia) Hs' Hb').
      eapply Forall_impl; [exact IH|]. intros c. rewrite (range_snoc a (x + 1)) by lia. rewrite <- app_assoc. tauto.
    + rewrite rev_involutive.
      assert (Hne : y <> x + 1).
      { intros ->. apply E. unfold add64. rewrite N.mod_small by (unfold two64 in *; lia). reflexivity. }
      inversion Hs' as [|? ? Hs'' Hf'']; subst. constructor.
      * unfold chunk_end. rewrite nlen_range, (proj2 (whole_range a (x + 1) ltac:(lia))).
        rewrite elem_of_app, elem_of_range, elem_of_cons. intros [I|[I|I]]; [lia|lia|].
        rewrite Forall_forall in Hf''. apply Hf'' in I. lia.
      * assert (Er : [y] = rev (range y (y + 1))) by (rewrite range_one; reflexivity).
        rewrite Er. specialize (IH y y ltac:(lia) Hs' Hb').
        destruct (group_from_spec l y y ltac:(lia) (sorted_lt_le _ Hs') Hb') as [G1 G2].
        rewrite Forall_forall in IH, G2 |- *. intros c Hc. specialize (IH c Hc). destruct (G2 c Hc) as [Hn Hr].
        assert (Hh : hd 0 c ∈ range y (y + 1) ++ l).
        { rewrite <- G1. rewrite elem_of_list_In, in_concat. exists c. rewrite <- elem_of_list_In. split; [exact Hc|].
          destruct c; [congruence|left; reflexivity]. }
        rewrite (range_one y) in Hh, IH. simpl in Hh, IH.
        rewrite elem_of_app, elem_of_range. intros [I|I]; [|exact (IH I)].
        apply elem_of_cons in Hh. rewrite Forall_forall in Hf''.
        assert (y <= hd 0 c) by (destruct Hh as [->|Hh]; [lia|apply Hf'' in Hh; lia]).
        unfold chunk_end in I. lia.
Qed.

Lemma group_maximal l : StronglySorted N.lt l -> Forall (fun i => i < two64) l ->
  Forall (fun c => chunk_end c ∉ l) (group_consecutive l).
Proof.
  destruct l as [|x l]; intros Hs Hb; simpl; [constructor|].
  assert (Er : [x] = rev (range x (x + 1))) by (rewrite range_one; reflexivity).
  pose proof (group_from_maximal l x x ltac:(lia) Hs Hb) as H.
  rewrite (range_one x) in H. exact H.
Qed.

(** ** Waiting tasks *)
Definition good_blocks (L : chain) (H : N) (l : list block) : Prop := Forall (fun b => snd b = L (fst b) /\ fst b < H) l.

Definition cache_ok (L : chain) (H : N) (c : gmap N (N * value)) : Prop := forall i ts v, c !! i = Some (ts, v) -> v = L i /\ i < H.

(** Requests not yet sent or answered, apart from the one whose archives are being asked. *)
Definition open_chunks (t : task) : list (N * N) :=
  match k_arch t with [] => k_chunks t | _ => tail (k_chunks t) end.

Definition awaited (t : task) : list N := concat (map ids_of (k_arch t)) ++ map fst (k_direct t) ++ ids_of (open_chunks t).

Record task_ok (L : chain) (H b : N) (t : task) : Prop := mkTaskOk {
  ok_got : good_blocks L H (k_got t);
  ok_direct : good_blocks L H (k_direct t);
  ok_empty : k_arch t = [] -> k_direct t = [];
  ok_arch : Forall (fun i => i < H) (concat (map ids_of (k_arch t)));
  ok_ids : exists cut, map fst (k_got t) ++ awaited t ++ cut ≡ₚ k_ids t /\ Forall (fun i => b <= i) cut
}.

Lemma good_blocks_mono L H H' l : H <= H' -> good_blocks L H l -> good_blocks L H' l.
Proof. intros Hl F. eapply Forall_impl; [exact F|]. simpl. intros ? []; split; [assumption|lia]. Qed.
Lemma cache_ok_mono L H H' c : H <= H' -> cache_ok L H c -> cache_ok L H' c.
Proof. intros Hl Hc i ts v E. destruct (Hc i ts v E). split; [assumption|lia]. Qed.
Lemma task_ok_mono L H H' b t : H <= H' -> task_ok L H b t -> task_ok L H' b t.
Proof.
  intros Hl [A B C D E]. constructor; eauto using good_blocks_mono. eapply Forall_impl; [exact D|]. simpl. intros; lia.
Qed.

Lemma good_blocks_eq L H l : good_blocks L H l -> l = map (fun i => (i, L i)) (map fst l).
Proof.
  induction 1 as [|[i v] l [E _] F IH]; [reflexivity|]. simpl in *. rewrite E. f_equal. exact IH.
Qed.
Lemma good_blocks_map L H l : Forall (fun i => i < H) l -> good_blocks L H (map (fun i => (i, L i)) l).
Proof. induction 1; constructor; auto. Qed.

Lemma insert_values_ok L H now l : forall c c', good_blocks L H l -> cache_ok L H c ->
  insert_values now l c = Some c' -> cache_ok L H c'.
Proof.
  induction l as [|[i v] l IH]; intros c c' Hl Hc E; cbn [insert_values] in E; [injection E as <-; exact Hc|].
  inversion Hl as [|? ? [Hv Hi] Hl']; subst. simpl in Hv, Hi. destruct (i <? two64); [|eauto].
  destruct (encodable v); [|discriminate]. eapply IH; [exact Hl'| |exact E].
  intros j ts w Ej. destruct (decide (i = j)) as [<-|Hn].
  - rewrite lookup_insert in Ej. injection Ej as _ <-. split; assumption.
  - rewrite lookup_insert_ne in Ej by exact Hn. eauto.
Qed.

Lemma cached_good L H c ids : cache_ok L H c -> good_blocks L H (cached_blocks c ids).
Proof.
  intros Hc. unfold cached_blocks. induction ids as [|i ids IH]; simpl; [constructor|].
  unfold try_get_value at 1. destruct (c !! i) as [[ts v]|] eqn:E; simpl; [|exact IH].
  constructor; [|exact IH]. exact (Hc _ _ _ E).
Qed.

(** How a message of a waiting task ends. *)
Definition same_base (s s' : istate) : Prop :=
  x_last s' = x_last s /\ x_index s' = x_index s /\ x_next s' = x_next s.

Definition waits (t : task) (id : N) (s s' : istate) (a : ianswer) (t' : task) : Prop :=
  a = IWait id /\ x_tasks s' = <[id := t']> (x_tasks s) /\ same_base s s' /\ k_ids t' = k_ids t /\ k_kind t' = k_kind t.

Definition ends (t : task) (id : N) (s s1 s' : istate) (a : ianswer) (got : list block) : Prop :=
  x_tasks s1 = delete id (x_tasks s) /\ same_base s s1 /\ finish (k_kind t) got s1 = Some (s', a).

(** What a reply does, apart from the cache: the next state of the task. *)
Inductive reaction (t : task) : ireply -> option task -> list block -> Prop :=
| react_direct_last s n bs : k_arch t = [] -> k_chunks t = [(s, n)] -> reaction t (RLedger [] bs) None (k_got t ++ bs)
| react_direct s n c cs bs : k_arch t = [] -> k_chunks t = (s, n) :: c :: cs ->
    reaction t (RLedger [] bs) (Some (mkTask (k_kind t) (k_ids t) (k_got t ++ bs) [] [] (c :: cs))) []
| react_archives a arch bs : k_arch t = [] ->
    reaction t (RLedger (a :: arch) bs) (Some (mkTask (k_kind t) (k_ids t) (k_got t) (a :: arch) bs (k_chunks t))) []
| react_archive_last a bs : k_arch t = [a] -> tail (k_chunks t) = [] ->
    reaction t (RArchive bs) None (k_got t ++ bs ++ k_direct t)
| react_archive_next a bs c cs : k_arch t = [a] -> tail (k_chunks t) = c :: cs ->
    reaction t (RArchive bs) (Some (mkTask (k_kind t) (k_ids t) (k_got t ++ bs ++ k_direct t) [] [] (c :: cs))) []
| react_archive a a' arch bs : k_arch t = a :: a' :: arch ->
    reaction t (RArchive bs) (Some (mkTask (k_kind t) (k_ids t) (k_got t ++ bs) (a' :: arch) (k_direct t) (k_chunks t))) [].

Lemma receive_cases L H b now id t r s s' a :
  honest L H t r -> cache_ok L H (x_cache s) -> task_ok L H b t ->
  receive now id t r s = Some (s', a) ->
  cache_ok L H (x_cache s') /\
  exists ot got, reaction t r ot got /\
    match ot with
    | Some t' => waits t id s s' a t'
    | None => exists s1, ends t id s s1 s' a got /\ cache_ok L H (x_cache s1)
    end.
Proof.
  intros Hh Hc Ht E. unfold receive in E.
  assert (Hfin : forall k got s1 s2 a2, finish k got s1 = Some (s2, a2) -> x_cache s2 = x_cache s1).
  { intros k got s1 s2 a2. unfold finish. destruct k; [|intros E2; injection E2 as <- _; reflexivity]. destruct (add_blocks _ _ _) as [[]|]; [|discriminate]. intros E2; injection E2 as <- _; reflexivity. }
  destruct (k_arch t) as [|a0 arch] eqn:Ea.
  - destruct r as [arch bs|bs|]; [|discriminate|discriminate]. destruct Hh as (st & n & rest & _ & Ek & P & Fb).
    assert (Hg : good_blocks L H bs).
    { unfold good_blocks. rewrite Forall_forall in Fb |- *. intros x Hx. split; [auto|].
      assert (I : fst x ∈ range st (N.min (st + n) H)).
      { rewrite <- P. apply elem_of_app. right. apply elem_of_list_fmap. eauto. }
      apply elem_of_range in I. lia. }
    destruct arch as [|a1 arch].
    + destruct (insert_values now bs (x_cache s)) as [c|] eqn:Ei; [|discriminate].
      pose proof (insert_values_ok L H _ _ _ _ Hg Hc Ei) as Hc'.
      unfold next_chunk in E. rewrite Ek in E. simpl in E. destruct rest as [|c1 cs].
      * split; [erewrite Hfin; [|exact E]; exact Hc'|]. exists None. eexists. split; [eapply react_direct_last; eauto|].
        eexists. split; [|]. split; [|split; [|exact E]]; repeat split. exact Hc'.
      * injection E as <- <-. split; [exact Hc'|]. eexists (Some _), []. split; [eapply react_direct; eauto|].
        repeat split.
    + injection E as <- <-. split; [exact Hc|]. eexists (Some _), []. split; [eapply react_archives; eauto|].
      repeat split.
  - destruct r as [ar bs|bs|]; [destruct arch; discriminate| |destruct arch; discriminate].
    destruct Hh as (a1 & rest & Eh & P). rewrite Ea in Eh. injection Eh as <- <-.
    assert (Hg : good_blocks L H bs).
    { unfold good_blocks. rewrite P. apply good_blocks_map. pose proof (ok_arch _ _ _ _ Ht) as F. rewrite Ea in F. simpl in F.
      apply Forall_app in F. apply F. }
    destruct arch as [|a2 arch].
    + destruct (insert_values now (bs ++ k_direct t) (x_cache s)) as [c|] eqn:Ei; [|discriminate].
      assert (Hc' : cache_ok L H c).
      { eapply insert_values_ok; [|exact Hc|exact Ei]. apply Forall_app. split; [exact Hg|apply Ht]. }
      unfold next_chunk in E. destruct (tail (k_chunks t)) as [|c1 cs] eqn:Ek.
      * split; [erewrite Hfin; [|exact E]; exact Hc'|]. exists None. eexists. split; [eapply react_archive_last; eauto|].
        eexists. split; [|]. split; [|split; [|exact E]]; repeat split. exact Hc'.
      * injection E as <- <-. split; [exact Hc'|]. eexists (Some _), []. split; [eapply react_archive_next; eauto|].
        repeat split.
    + destruct (insert_values now bs (x_cache s)) as [c|] eqn:Ei; [|discriminate].
      injection E as <- <-. split; [eapply insert_values_ok; eauto|]. eexists (Some _), [].
      split; [eapply react_archive; eauto|]. repeat split.
Qed.

(** Blocks received by a reply. *)
Lemma map_fst_pairs (L : chain) l : map fst (map (fun i => (i, L i)) l) = l.
Proof. induction l; simpl; congruence. Qed.

Lemma range_cut s n H : exists c, s <= c <= s + n /\ range s (N.min (s + n) H) = range s c /\
  (c = s + n \/ H <= c) /\ range s (s + n) = range s c ++ range c (s + n).
Proof.
  exists (N.max s (N.min (s + n) H)).
  split; [lia|]. split; [|split; [lia|apply range_app; lia]].
  destruct (N.le_gt_cases s (N.min (s + n) H)).
  - f_equal. lia.
  - rewrite !range_nil by lia. reflexivity.
Qed.

(** A reaction, seen on ids: what arrives was awaited; at most the end of the requested interval is cut off. *)
Lemma reaction_ids L H b t r ot got : reaction t r ot got -> honest L H t r -> task_ok L H b t ->
  exists cut_from cut_to,
    (cut_from = cut_to \/ (exists st n rest, H <= cut_from /\ k_arch t = [] /\ k_chunks t = (st, n) :: rest /\
                            cut_to = st + n /\ st <= cut_from <= st + n)) /\
    match ot with
    | Some t' => map fst (k_got t') ++ awaited t' ++ range cut_from cut_to ≡ₚ map fst (k_got t) ++ awaited t /\
                 good_blocks L H (k_got t') /\ good_blocks L H (k_direct t') /\ (k_arch t' = [] -> k_direct t' = []) /\
                 Forall (fun i => i < H) (concat (map ids_of (k_arch t'))) /\
                 open_chunks t' = match k_arch t with [] => tail (open_chunks t) | _ => open_chunks t end
    | None => map fst got ++ range cut_from cut_to ≡ₚ map fst (k_got t) ++ awaited t /\ good_blocks L H got
    end.
Proof.
  intros R Hh Ht. pose proof (ok_got _ _ _ _ Ht) as Hg. pose proof (ok_direct _ _ _ _ Ht) as Hd.
  pose proof (ok_arch _ _ _ _ Ht) as Harch.
  assert (Hledger : forall arch bs st n rest, k_arch t = [] -> k_chunks t = (st, n) :: rest ->
    concat (map ids_of arch) ++ map fst bs ≡ₚ range st (N.min (st + n) H) -> Forall (fun b => snd b = L (fst b)) bs ->
    good_blocks L H bs /\ Forall (fun i => i < H) (concat (map ids_of arch)) /\
    exists c, (c = st + n \/ (exists st' n' rest', H <= c /\ k_arch t = [] /\ k_chunks t = (st', n') :: rest' /\
                            st + n = st' + n' /\ st' <= c <= st' + n')) /\
      concat (map ids_of arch) ++ map fst bs ++ ids_of rest ++ range c (st + n) ≡ₚ awaited t).
  { intros arch bs st n rest Ea Ek P Fb.
    assert (Hlt : Forall (fun i => i < H) (concat (map ids_of arch) ++ map fst bs)).
    { rewrite P. apply Forall_forall. intros i Hi. apply elem_of_range in Hi. lia. }
    apply Forall_app in Hlt. destruct Hlt as [Hl1 Hl2]. split.
    { unfold good_blocks. apply Forall_forall; rewrite Forall_forall in Fb; rewrite Forall_forall in Hl2. intros x Hx. split; [auto|].
      apply Hl2. apply elem_of_list_fmap. eauto. }
    split; [exact Hl1|]. destruct (range_cut st n H) as (c & Hc1 & Hc2 & Hc3 & Hc4). exists c. split.
    { destruct Hc3 as [->|Hc3]; [left; reflexivity|right]. exists st, n, rest. auto. }
    unfold awaited. rewrite (ok_empty _ _ _ _ Ht Ea). unfold open_chunks. rewrite Ea, Ek. simpl.
    rewrite ids_of_cons, Hc4, <- Hc2, <- P, <- !app_assoc. do 2 f_equiv. rewrite Permutation_app_comm. reflexivity. }
  destruct R as [st n bs Ea Ek|st n c cs bs Ea Ek|a arch bs Ea|a bs Ea Ek|a bs c cs Ea Ek|a a' arch bs Ea].
  - destruct Hh as (st' & n' & rest & _ & Ek' & P & Fb). destruct (Hledger _ _ _ _ _ Ea Ek' P Fb) as (G1 & G2 & c & Hc & Hp).
    exists c, (st' + n'). split; [destruct Hc as [->|Hc]; [left; reflexivity|right; exact Hc]|]. rewrite Ek in Ek'. injection Ek' as <- <- <-. split.
    + rewrite map_app, <- app_assoc. apply Permutation_app_head. rewrite <- Hp. reflexivity.
    + apply Forall_app. auto.
  - destruct Hh as (st' & n' & rest & _ & Ek' & P & Fb). destruct (Hledger _ _ _ _ _ Ea Ek' P Fb) as (G1 & G2 & c' & Hc & Hp).
    exists c', (st' + n'). split; [destruct Hc as [->|Hc]; [left; reflexivity|right; exact Hc]|].
    rewrite Ek in Ek'. injection Ek' as <- <- <-. splits; simpl.
    + rewrite map_app, <- app_assoc. apply Permutation_app_head. rewrite <- Hp. unfold awaited, open_chunks. simpl. reflexivity.
    + apply Forall_app. auto.
    + constructor.
    + reflexivity.
    + constructor.
    + unfold open_chunks. simpl. rewrite Ea, Ek. reflexivity.
  - destruct Hh as (st' & n' & rest & _ & Ek' & P & Fb). destruct (Hledger _ _ _ _ _ Ea Ek' P Fb) as (G1 & G2 & c' & Hc & Hp).
    exists c', (st' + n'). split; [destruct Hc as [->|Hc]; [left; reflexivity|right; exact Hc]|]. splits; simpl.
    + apply Permutation_app_head. rewrite <- Hp. unfold awaited, open_chunks. simpl. rewrite Ek'. simpl. rewrite <- !app_assoc. reflexivity.
    + assumption.
    + assumption.
    + discriminate.
    + exact G2.
    + unfold open_chunks. simpl. rewrite Ea. reflexivity.
  - destruct Hh as (a1 & rest & Eh & P). rewrite Ea in Eh. injection Eh as <- <-. exists 0, 0. split; [auto|]. split.
    + rewrite range_nil, app_nil_r, !map_app, P, map_fst_pairs by lia. apply Permutation_app_head. unfold awaited, open_chunks. rewrite Ea, Ek. simpl.
      rewrite !app_nil_r. reflexivity.
    + apply Forall_app. split; [assumption|]. apply Forall_app. split; [|assumption]. rewrite P. apply good_blocks_map.
      rewrite Ea in Harch. simpl in Harch. rewrite app_nil_r in Harch. exact Harch.
  - destruct Hh as (a1 & rest & Eh & P). rewrite Ea in Eh. injection Eh as <- <-. exists 0, 0. split; [auto|]. splits; simpl.
    + assert (Pb : map fst bs ≡ₚ ids_of a) by (rewrite P, map_fst_pairs; reflexivity).
      change (range 0 0) with (@nil N). unfold awaited, open_chunks. rewrite Ea, Ek. cbn [map concat k_arch k_direct k_chunks app tail].
      rewrite !map_app, !app_nil_r, <- !app_assoc, Pb. reflexivity.
    + apply Forall_app. split; [assumption|]. apply Forall_app. split; [|assumption]. rewrite P. apply good_blocks_map.
      rewrite Ea in Harch. simpl in Harch. rewrite app_nil_r in Harch. exact Harch.
    + constructor.
    + reflexivity.
    + constructor.
    + unfold open_chunks. simpl. rewrite Ea, Ek. reflexivity.
  - destruct Hh as (a1 & rest & Eh & P). rewrite Ea in Eh. injection Eh as <- <-. exists 0, 0. split; [auto|]. splits; simpl.
    + assert (Pb : map fst bs ≡ₚ ids_of a) by (rewrite P, map_fst_pairs; reflexivity).
      change (range 0 0) with (@nil N). unfold awaited, open_chunks. rewrite Ea. cbn [map concat k_arch k_direct k_chunks app tail].
      rewrite !map_app, !app_nil_r, <- !app_assoc, Pb. reflexivity.
    + apply Forall_app. split; [assumption|]. rewrite P. apply good_blocks_map.
      rewrite Ea in Harch. simpl in Harch. apply Forall_app in Harch. apply Harch.
    + assumption.
    + discriminate.
    + rewrite Ea in Harch. simpl in Harch. apply Forall_app in Harch. apply Harch.
    + unfold open_chunks. simpl. rewrite Ea. reflexivity.
Qed.

(** ** Content of the index *)
Definition occurs (k : ikey) (l : list ikey) : nat := length (filter (fun x => x = k) l).

Lemma occurs_cons k x l : occurs k (x :: l) = ((if decide (x = k) then 1 else 0) + occurs k l)%nat.
Proof. unfold occurs. rewrite filter_cons. destruct (decide (x = k)); reflexivity. Qed.

Definition small_key (k : ikey) : Prop := match k with KToken n => n < two64 | _ => True end.

Lemma fold_push_none id l : fold_left (push_front id) l None = None.
Proof. induction l; [reflexivity|exact IHl]. Qed.

Lemma fold_push id l : forall ix ix', fold_left (push_front id) l (Some ix) = Some ix' ->
  Forall small_key l /\ forall k, default [] (ix' !! k) = repeat id (occurs k l) ++ default [] (ix !! k).
Proof.
  induction l as [|x l IH]; intros ix ix' E; cbn [fold_left] in E.
  - injection E as <-. split; [constructor|]. reflexivity.
  - unfold push_front at 2 in E. destruct (match x with KToken n => n <? two64 | _ => true end) eqn:Ek.
    2: { rewrite fold_push_none in E. discriminate. }
    destruct (IH _ _ E) as [IH1 IH2]. split.
    + constructor; [|exact IH1]. destruct x; simpl; auto. apply N.ltb_lt, Ek.
    + intros k. rewrite IH2, occurs_cons. destruct (decide (x = k)) as [->|Hn].
      * rewrite lookup_insert. simpl. change (id :: ?l) with ([id] ++ l). rewrite app_assoc. 
        replace (repeat id (occurs k l) ++ [id]) with (id :: repeat id (occurs k l)); [reflexivity|].
        apply (repeat_cons (occurs k l) id).
      * rewrite lookup_insert_ne by exact Hn. reflexivity.
Qed.

Lemma fold_push_ok id l : forall ix, Forall small_key l -> exists ix', fold_left (push_front id) l (Some ix) = Some ix'.
Proof.
  induction l as [|x l IH]; intros ix H; [eexists; reflexivity|]. inversion H as [|? ? Hx Hl]; subst. cbn [fold_left].
  unfold push_front at 2. destruct (match x with KToken n => n <? two64 | _ => true end) eqn:Ek; [apply IH, Hl|].
  destruct x; try discriminate. simpl in Hx. apply N.ltb_ge in Ek. lia.
Qed.

(** Keys of a block, with repetition. *)
Definition keys_of (d : value) : list ikey := match block_type d with Some b => entry_keys b d | None => [] end.
Definition enterable (d : value) : Prop := block_type d <> None /\ Forall small_key (keys_of d).

Lemma add_block_spec i d ix ix' : add_block_to_index (i, d) ix = Done ix' ->
  i < two64 /\ enterable d /\ forall k, default [] (ix' !! k) = repeat i (occurs k (keys_of d)) ++ default [] (ix !! k).
Proof.
  unfold add_block_to_index, enterable, keys_of. simpl. destruct (block_type d) as [b|] eqn:Eb; [|discriminate].
  destruct (N.ltb_spec i two64) as [Hi|Hi]; [|discriminate].
  destruct (fold_left _ _ _) as [ix1|] eqn:E; [|discriminate]. intros [= <-].
  destruct (fold_push _ _ _ _ E) as [H1 H2]. repeat split; auto.
Qed.
Lemma add_block_ok i d ix : i < two64 -> enterable d -> exists ix', add_block_to_index (i, d) ix = Done ix'.
Proof.
  unfold add_block_to_index, enterable, keys_of. simpl. intros Hi [H1 H2]. destruct (block_type d) as [b|]; [|congruence].
  apply N.ltb_lt in Hi. rewrite Hi. destruct (fold_push_ok i _ ix H2) as [ix' ->]. eauto.
Qed.

Definition entries (L : chain) (k : ikey) (n : N) : list N :=
  rev (concat (map (fun i => repeat i (occurs k (keys_of (L i)))) (range 0 n))).
Definition exact_index (L : chain) (ix : gmap ikey (list N)) (n : N) : Prop :=
  (forall k, default [] (ix !! k) = entries L k n) /\ forall i, i < n -> enterable (L i).

Lemma rev_repeat {A} (x : A) n : rev (repeat x n) = repeat x n.
Proof. induction n; [reflexivity|]. simpl. rewrite IHn. symmetry. apply repeat_cons. Qed.

Lemma entries_succ L k n : entries L k (n + 1) = repeat n (occurs k (keys_of (L n))) ++ entries L k n.
Proof.
  unfold entries. rewrite range_snoc by lia. rewrite map_app, concat_app, rev_app_distr. simpl. rewrite app_nil_r, rev_repeat.
  reflexivity.
Qed.

Lemma add_blocks_spec L m : forall n ix n' ix', n + N.of_nat m < two64 -> exact_index L ix n ->
  add_blocks (map (fun i => (i, L i)) (count_up n m)) n ix = Some (n', ix') ->
  n <= n' <= n + N.of_nat m /\ exact_index L ix' n'.
Proof.
  induction m as [|m IH]; intros n ix n' ix' Hb Hx E.
  - simpl in E. injection E as <- <-. split; [lia|exact Hx].
  - cbn [count_up map add_blocks] in E. destruct (add_block_to_index (n, L n) ix) as [ix1| |] eqn:Ea; [| |discriminate].
    + destruct (add_block_spec _ _ _ _ Ea) as (H1 & H2 & H3). unfold add64 in E. rewrite N.mod_small in E by lia.
      apply IH in E; [split; [lia|apply E]|lia|]. destruct Hx as [X1 X2]. split.
      * intros k. rewrite H3, entries_succ, X1. reflexivity.
      * intros i Hi. destruct (N.eq_dec i n) as [->|]; [exact H2|]. apply X2. lia.
    + injection E as <- <-. split; [lia|exact Hx].
Qed.
Lemma add_blocks_all L m : forall n ix, n + N.of_nat m < two64 ->
  (forall i, n <= i < n + N.of_nat m -> enterable (L i)) ->
  exists ix', add_blocks (map (fun i => (i, L i)) (count_up n m)) n ix = Some (n + N.of_nat m, ix').
Proof.
  induction m as [|m IH]; intros n ix Hb He.
  - eexists. simpl. do 2 f_equal. lia.
  - cbn [count_up map add_blocks]. destruct (add_block_ok n (L n) ix) as [ix1 ->]; [lia|apply He; lia|].
    unfold add64. rewrite N.mod_small by lia. destruct (IH (n + 1) ix1) as [ix' E']; [lia|intros; apply He; lia|].
    exists ix'. rewrite E'. do 2 f_equal. lia.
Qed.

(** Blocks in order. *)
Lemma sort_asc_spec l : sort_blocks false l ≡ₚ l /\ StronglySorted id_le (sort_blocks false l).
Proof.
  unfold sort_blocks. split; [apply merge_sort_Permutation|]. apply StronglySorted_merge_sort.
  - intros a b c. unfold id_le. lia.
  - intros a b. unfold id_le. lia.
Qed.
Lemma sort_desc_spec l : sort_blocks true l ≡ₚ l /\ StronglySorted id_ge (sort_blocks true l).
Proof.
  unfold sort_blocks. split; [apply merge_sort_Permutation|]. apply StronglySorted_merge_sort.
  - intros a b c. unfold id_ge. lia.
  - intros a b. unfold id_ge. lia.
Qed.
Lemma sorted_fst l : StronglySorted id_le l -> StronglySorted N.le (map fst l).
Proof.
  induction 1 as [|x l H IH F]; simpl; constructor; [exact IH|]. apply Forall_map. exact F.
Qed.
Lemma sorted_fst_ge l : StronglySorted id_ge l -> StronglySorted (fun a b => b <= a) (map fst l).
Proof.
  induction 1 as [|x l H IH F]; simpl; constructor; [exact IH|]. apply Forall_map. exact F.
Qed.
Lemma good_blocks_perm L H l l' : l ≡ₚ l' -> good_blocks L H l -> good_blocks L H l'.
Proof. intros P. unfold good_blocks. rewrite P. auto. Qed.

Lemma sort_asc_good L H l ids : good_blocks L H l -> map fst l ≡ₚ ids -> StronglySorted N.le ids ->
  sort_blocks false l = map (fun i => (i, L i)) ids.
Proof.
  intros Hg P Hs. destruct (sort_asc_spec l) as [P2 Hs2].
  rewrite (good_blocks_eq L H (sort_blocks false l)) by (eapply good_blocks_perm; [|exact Hg]; symmetry; exact P2).
  f_equal. apply (StronglySorted_unique N.le); [apply sorted_fst, Hs2|exact Hs|]. rewrite <- P. apply Permutation_map, P2.
Qed.
Lemma sorted_snoc {A} (R : A -> A -> Prop) l x : StronglySorted R l -> (forall a, a ∈ l -> R a x) -> StronglySorted R (l ++ [x]).
Proof.
  induction 1 as [|y l H IH F]; intros Hx; simpl; [repeat constructor|]. constructor.
  - apply IH. intros a Ha. apply Hx. right. exact Ha.
  - apply Forall_app. split; [exact F|]. constructor; [|constructor]. apply Hx. left.
Qed.
Lemma sorted_rev l : StronglySorted N.le l -> StronglySorted (fun a b => b <= a) (rev l).
Proof.
  induction 1 as [|x l H IH F]; simpl; [constructor|]. apply sorted_snoc; [exact IH|].
  intros a Ha. rewrite Forall_forall in F. apply F.
  rewrite elem_of_list_In in *. apply in_rev. exact Ha.
Qed.
Lemma sort_desc_good L H l ids : good_blocks L H l -> map fst l ≡ₚ ids -> StronglySorted N.le ids ->
  sort_blocks true l = map (fun i => (i, L i)) (rev ids).
Proof.
  intros Hg P Hs. destruct (sort_desc_spec l) as [P2 Hs2].
  rewrite (good_blocks_eq L H (sort_blocks true l)) by (eapply good_blocks_perm; [|exact Hg]; symmetry; exact P2).
  f_equal. assert (AntiSymm eq (fun a b : N => b <= a)) by (intros a b; lia).
  apply (StronglySorted_unique (fun a b => b <= a)); [apply sorted_fst_ge, Hs2|apply sorted_rev, Hs|].
  rewrite <- Permutation_rev, <- P. apply Permutation_map, P2.
Qed.

(** ** Invariant of all fair histories *)
Definition sound_index (L : chain) (H : N) (ix : gmap ikey (list N)) : Prop :=
  forall k i, i ∈ default [] (ix !! k) -> i < H /\ i < two64 /\ k ∈ keys_of (L i).

Record ok_state (L : chain) (H : N) (s : istate) : Prop := mkOkState {
  os_cache : cache_ok L H (x_cache s);
  os_index : sound_index L H (x_index s);
  os_tasks : forall id t, x_tasks s !! id = Some t -> id < x_next s /\ task_ok L H 0 t
}.

Lemma ok_state_mono L H H' s : H <= H' -> ok_state L H s -> ok_state L H' s.
Proof.
  intros Hl [A B C]. constructor.
  - eauto using cache_ok_mono.
  - intros k i Hi. destruct (B k i Hi) as (? & ? & ?). repeat split; auto. lia.
  - intros id t Ht. destruct (C id t Ht). split; [assumption|eauto using task_ok_mono].
Qed.

Lemma occurs_elem k l : (0 < occurs k l)%nat -> k ∈ l.
Proof.
  unfold occurs. intros H. destruct (filter (fun x => x = k) l) as [|x r] eqn:E; [simpl in H; lia|].
  assert (I : x ∈ filter (fun x => x = k) l) by (rewrite E; left). apply elem_of_list_filter in I. destruct I as [-> I]. exact I.
Qed.
Lemma elem_of_repeat {A} (x y : A) n : x ∈ repeat y n -> x = y /\ (0 < n)%nat.
Proof.
  induction n; simpl; intros I; [inversion I|]. apply elem_of_cons in I. split; [|lia]. destruct I; [auto|]. apply IHn. assumption.
Qed.

Lemma add_blocks_sound L H l : forall n ix n' ix', good_blocks L H l -> sound_index L H ix ->
  add_blocks l n ix = Some (n', ix') -> sound_index L H ix'.
Proof.
  induction l as [|[i v] l IH]; intros n ix n' ix' Hg Hs E; cbn [add_blocks] in E; [injection E as <- <-; exact Hs|].
  inversion Hg as [|? ? [Hv Hi] Hg']; subst. simpl in Hv, Hi.
  destruct (add_block_to_index (i, v) ix) as [ix1| |] eqn:Ea; [| |discriminate].
  - eapply IH; [exact Hg'| |exact E]. destruct (add_block_spec _ _ _ _ Ea) as (H1 & H2 & H3).
    intros k j Hj. rewrite H3 in Hj. apply elem_of_app in Hj. destruct Hj as [Hj|Hj]; [|apply Hs, Hj].
    apply elem_of_repeat in Hj. destruct Hj as [-> Ho]. repeat split; auto. rewrite <- Hv. apply occurs_elem, Ho.
  - injection E as <- <-. exact Hs.
Qed.

Lemma finish_ok L H k got s s' a : good_blocks L H got -> sound_index L H (x_index s) ->
  finish k got s = Some (s', a) ->
  sound_index L H (x_index s') /\ x_cache s' = x_cache s /\ x_tasks s' = x_tasks s /\ x_next s' = x_next s.
Proof.
  intros Hg Hs. unfold finish. destruct k as [n|d].
  - destruct (add_blocks _ _ _) as [[n' ix]|] eqn:E; [|discriminate]. intros E2. injection E2 as <- <-. simpl. splits; auto.
    eapply add_blocks_sound; [|exact Hs|exact E]. eapply good_blocks_perm; [|exact Hg]. symmetry. apply sort_asc_spec.
  - intros E2. injection E2 as <- _. auto.
Qed.

Lemma begin_cases L H k ids s s' a : cache_ok L H (x_cache s) -> Forall (fun i => i < two64) ids ->
  begin_fetch k ids s = Some (s', a) ->
  let got := cached_blocks (x_cache s) ids in
  good_blocks L H got /\
  ((chunk_requests (x_cache s) ids = [] /\ map fst got ≡ₚ ids /\ finish k got s = Some (s', a)) \/
   (let t := mkTask k ids got [] [] (chunk_requests (x_cache s) ids) in
    task_ok L H H t /\ a = IWait (x_next s) /\
    s' = mkIst (x_last s) (x_index s) (x_cache s) (<[x_next s := t]> (x_tasks s)) (x_next s + 1))).
Proof.
  intros Hc Hb E got. pose proof (cached_good L H (x_cache s) ids Hc) as Hg. fold got in Hg. split; [exact Hg|].
  pose proof (fetch_ids (x_cache s) ids Hb) as P. fold got in P. unfold begin_fetch in E. fold got in E.
  destruct (chunk_requests (x_cache s) ids) as [|c cs] eqn:Ec.
  - left. rewrite app_nil_r in P. auto.
  - right. injection E as <- <-. split; [|auto]. constructor; simpl; auto; try constructor.
    exists []. rewrite app_nil_r. split; [exact P|constructor].
Qed.

Lemma task_ok_0 L H b t : task_ok L H b t -> task_ok L H 0 t.
Proof.
  intros [A B C D (cut & P & F)]. constructor; auto. exists cut. split; [exact P|]. eapply Forall_impl; [exact F|]. simpl. intros; lia.
Qed.

(** One reply of a tracked task. *)
Lemma reaction_ok L H b t r ot got : b <= H -> reaction t r ot got -> honest L H t r -> task_ok L H b t ->
  match ot with
  | Some t' => task_ok L H b t'
  | None => good_blocks L H got /\ exists cut, map fst got ++ cut ≡ₚ k_ids t /\ Forall (fun i => b <= i) cut
  end.
Proof.
  intros Hb R Hh Ht. destruct (reaction_ids _ _ _ _ _ _ _ R Hh Ht) as (cf & ct & Hcut & Hm).
  assert (Fc : Forall (fun i => b <= i) (range cf ct)).
  { apply Forall_forall. intros i Hi. apply elem_of_range in Hi. destruct Hcut as [->|(? & ? & ? & Hle & _)]; lia. }
  destruct (ok_ids _ _ _ _ Ht) as (cut & P & F).
  destruct ot as [t'|].
  - destruct Hm as (M1 & M2 & M3 & M4 & M5 & M6). constructor; auto.
    assert (Ek : k_ids t' = k_ids t) by (inversion R; reflexivity).
    exists (range cf ct ++ cut). rewrite Ek. split; [|apply Forall_app; auto]. rewrite <- P.
    rewrite !app_assoc. apply Permutation_app_tail. rewrite <- !app_assoc. exact M1.
  - destruct Hm as (M1 & M2). split; [exact M2|]. exists (range cf ct ++ cut). split; [|apply Forall_app; auto].
    rewrite <- P. rewrite !app_assoc. apply Permutation_app_tail. exact M1.
Qed.

Lemma range64 a b c : Forall (fun i => i < two64) (range a (add64 b c)).
Proof.
  apply Forall_forall. intros i Hi. apply elem_of_range in Hi. unfold add64 in Hi.
  pose proof (N.mod_lt (b + c) two64 ltac:(discriminate)). lia.
Qed.

Lemma fold_filter_in (i : N) (ls : list (list N)) : forall res : list N, i ∈ fold_left (fun res f => filter (fun i => i ∈ f) res) ls res <->
  i ∈ res /\ forall l, l ∈ ls -> i ∈ l.
Proof.
  induction ls as [|l ls IH]; intros res; cbn [fold_left].
  - split; [intros I; split; [exact I|intros ? J; inversion J]|tauto].
  - rewrite IH, elem_of_list_filter. split.
    + intros [[I1 I2] I3]. split; [exact I2|]. intros l' J. apply elem_of_cons in J. destruct J as [->|J]; auto.
    + intros [I1 I2]. split; [split; [apply I2; left|exact I1]|]. intros l' J. apply I2. right. exact J.
Qed.

Lemma combined_in ix f i : f <> [] -> (i ∈ combined_ids ix f <-> forall k, k ∈ f -> i ∈ default [] (ix !! k)).
Proof.
  intros Hf. unfold combined_ids. destruct f as [|k0 f]; [congruence|]. cbn [map]. rewrite merge_sort_Permutation, fold_filter_in.
  split.
  - intros [I1 I2] k Hk. apply elem_of_cons in Hk. destruct Hk as [->|Hk]; [exact I1|]. apply I2.
    apply elem_of_list_fmap. eauto.
  - intros I. split; [apply I; left|]. intros l Hl. apply elem_of_list_fmap in Hl. destruct Hl as (k & -> & Hk).
    apply I. right. exact Hk.
Qed.
Lemma fold_filter_NoDup (ls : list (list N)) : forall res : list N, NoDup res ->
  NoDup (fold_left (fun res f => filter (fun i => i ∈ f) res) ls res).
Proof. induction ls as [|l ls IH]; intros res H; cbn [fold_left]; [exact H|]. apply IH, NoDup_filter, H. Qed.
Lemma combined_sorted ix f : StronglySorted N.le (combined_ids ix f).
Proof.
  unfold combined_ids. destruct (map _ f); [constructor|]. apply merge_sort_sorted.
Qed.

Lemma take_n_in {A} n (l : list A) x : x ∈ take_n n l -> x ∈ l.
Proof.
  unfold take_n. intros I. rewrite <- (firstn_skipn (N.to_nat (N.min n (nlen l))) l). apply elem_of_app. left. exact I.
Qed.
Lemma skip_n_in {A} n (l : list A) x : x ∈ skip_n n l -> x ∈ l.
Proof.
  unfold skip_n. intros I. rewrite <- (firstn_skipn (N.to_nat (N.min n (nlen l))) l). apply elem_of_app. right. exact I.
Qed.
Lemma filter_page_in ids a n p i : filter_page ids a n = Some p -> i ∈ p -> i ∈ ids.
Proof.
  unfold filter_page. destruct (_ <=? _); [intros [= <-] I; inversion I|]. destruct (_ <? _); [discriminate|].
  intros [= <-] I. eapply skip_n_in, take_n_in, I.
Qed.

(** The ids a query asks for. *)
Definition query_ids (a n : N) (f : list ikey) (so : option bool) (s : istate) : option (list N) :=
  match f with
  | [] => let a' := if default false so then x_last s - n else a in Some (range a' (add64 a' n))
  | _ => filter_page (combined_ids (x_index s) f) a n
  end.
Lemma get_blocks_query a n f so s : get_blocks a n f so s =
  match query_ids a n f so s with Some ids => begin_fetch (KGet (default false so)) ids s | None => None end.
Proof. destruct f; reflexivity. Qed.

Lemma query_ids_small L H a n f so s ids : ok_state L H s -> query_ids a n f so s = Some ids -> Forall (fun i => i < two64) ids.
Proof.
  intros Hs E. destruct f as [|k f].
  - injection E as <-. apply range64.
  - apply Forall_forall. intros i Hi. simpl in E.
    pose proof (filter_page_in _ _ _ _ _ E Hi) as I. rewrite combined_in in I by discriminate.
    specialize (I k ltac:(left)). apply (os_index _ _ _ Hs) in I. apply I.
Qed.

Lemma begin_ok L H k ids s s' a : ok_state L H s -> Forall (fun i => i < two64) ids ->
  begin_fetch k ids s = Some (s', a) -> ok_state L H s'.
Proof.
  intros [A B C] Hb E. destruct (begin_cases L H k ids s s' a A Hb E) as [Hg [(_ & P & F)|(Ht & -> & ->)]].
  - destruct (finish_ok _ _ _ _ _ _ _ Hg B F) as (F1 & F2 & F3 & F4). constructor.
    + rewrite F2. exact A.
    + exact F1.
    + rewrite F3, F4. exact C.
  - constructor; simpl; auto. intros id t. destruct (decide (id = x_next s)) as [->|Hn].
    + rewrite lookup_insert. intros [= <-]. split; [lia|]. eapply task_ok_0, Ht.
    + rewrite lookup_insert_ne by congruence. intros E'. apply C in E'. split; [lia|apply E'].
Qed.

Lemma istep_ok L H e o s : H <= i_height e -> ok_state L H s ->
  (forall id rp t, o = IReply id rp -> x_tasks s !! id = Some t -> honest L (i_height e) t rp) ->
  ok_state L (i_height e) (fst (istep (i_now e) o s)).
Proof.
  intros Hl Hs Hh. apply (ok_state_mono _ _ _ _ Hl) in Hs. destruct o as [| |a n f so|id r|]; simpl.
  - destruct (begin_fetch _ _ s) as [[s' an]|] eqn:E; simpl; [|exact Hs]. eapply begin_ok; [exact Hs|apply range64|exact E].
  - unfold remove_all_values_older_than. destruct (existsb _ _); simpl; [exact Hs|]. destruct Hs; constructor; auto.
  - rewrite get_blocks_query. destruct (query_ids a n f so s) as [ids|] eqn:Eq; simpl; [|exact Hs].
    destruct (begin_fetch _ _ s) as [[s' an]|] eqn:E; simpl; [|exact Hs].
    eapply begin_ok; [exact Hs|eapply query_ids_small; eauto|exact E].
  - destruct (x_tasks s !! id) as [t|] eqn:Et; simpl; [|exact Hs]. specialize (Hh id r t eq_refl Et).
    destruct (os_tasks _ _ _ Hs id t Et) as [Hi Ht].
    assert (Hdel : ok_state L (i_height e) (set_tasks (delete id (x_tasks s)) s)).
    { destruct Hs as [A B C]. constructor; auto. simpl. intros id' t' E'. apply lookup_delete_Some in E'. apply C, E'. }
    destruct (receive (i_now e) id t r s) as [[s' an]|] eqn:E; simpl; [|exact Hdel].
    destruct (receive_cases _ _ _ _ _ _ _ _ _ _ Hh (os_cache _ _ _ Hs) Ht E) as (Hc & ot & got & R & Hot).
    pose proof (reaction_ok L (i_height e) 0 t _ _ _ ltac:(lia) R Hh Ht) as Hr. destruct ot as [t'|].
    + destruct Hot as (-> & E1 & (E2 & E3 & E4) & _). constructor; [exact Hc|rewrite E3; apply Hs|].
      rewrite E1, E4. intros id' t2. destruct (decide (id = id')) as [<-|Hn].
      * rewrite lookup_insert. intros [= <-]. auto.
      * rewrite lookup_insert_ne by exact Hn. apply Hs.
    + destruct Hot as (s1 & (E1 & (E2 & E3 & E4) & F) & Hc1). destruct Hr as [Hg _].
      destruct (finish_ok L (i_height e) _ _ _ _ _ Hg ltac:(rewrite E3; apply Hs) F) as (F1 & F2 & F3 & F4).
      constructor; [exact Hc|exact F1|]. rewrite F3, F4, E1, E4. apply Hdel.
  - destruct Hs; constructor; auto. simpl. intros id t E. rewrite lookup_empty in E. discriminate.
Qed.

Lemma istart_ok L : ok_state L 0 istart.
Proof.
  constructor; simpl.
  - intros i ts v. rewrite lookup_empty. discriminate.
  - intros k i. simpl. rewrite lookup_empty. intros I. inversion I.
  - intros id t. rewrite lookup_empty. discriminate.
Qed.

(** Height at the end of a history. *)
Fixpoint last_height (H : N) (h : ihistory) : N := match h with [] => H | (e, _) :: r => last_height (i_height e) r end.

Lemma fair_height L h : forall H s, fair L H h s -> H <= last_height H h.
Proof.
  induction h as [|[e o] h IH]; intros H s F; simpl in *; [lia|]. destruct F as (Hl & _ & _ & F). apply IH in F. lia.
Qed.
Lemma fair_ok L h : forall H s, ok_state L H s -> fair L H h s -> ok_state L (last_height H h) (irun h s).
Proof.
  induction h as [|[e o] h IH]; intros H s Hs F; [exact Hs|]. destruct F as (Hl & _ & Hh & F). simpl.
  apply IH; [|exact F]. apply (istep_ok L H e o s); [lia|exact Hs|exact Hh].
Qed.
Lemma irun_app h1 h2 : forall s, irun (h1 ++ h2) s = irun h2 (irun h1 s).
Proof. induction h1 as [|[e o] h1 IH]; intros s; [reflexivity|]. simpl. apply IH. Qed.
Lemma last_height_app h1 h2 : forall H, last_height H (h1 ++ h2) = last_height (last_height H h1) h2.
Proof. induction h1 as [|[e o] h1 IH]; intros H; [reflexivity|]. simpl. apply IH. Qed.
Lemma fair_app L h1 h2 : forall H s, fair L H (h1 ++ h2) s <-> fair L H h1 s /\ fair L (last_height H h1) h2 (irun h1 s).
Proof.
  induction h1 as [|[e o] h1 IH]; intros H s; simpl; [tauto|]. rewrite IH. tauto.
Qed.

(** ** Following one call *)
Definition tracked (L : chain) (H b id : N) (k : kind) (ids : list N) (s : istate) : Prop :=
  id < x_next s /\ forall t, x_tasks s !! id = Some t -> task_ok L H b t /\ k_ids t = ids /\ k_kind t = k.

Lemma tracked_begin L H b id k ids k' ids' s s' a : ok_state L H s -> Forall (fun i => i < two64) ids' ->
  begin_fetch k' ids' s = Some (s', a) -> tracked L H b id k ids s -> tracked L H b id k ids s'.
Proof.
  intros [A B C] Hb E [T1 T2]. destruct (begin_cases L H k' ids' s s' a A Hb E) as [Hg [(_ & P & F)|(Ht & -> & ->)]].
  - destruct (finish_ok _ _ _ _ _ _ _ Hg B F) as (F1 & F2 & F3 & F4). split; [rewrite F4; exact T1|rewrite F3; exact T2].
  - split; simpl; [lia|]. rewrite lookup_insert_ne by lia. exact T2.
Qed.

Lemma tracked_step L H b id k ids e o s : b <= H -> H <= i_height e -> ok_state L H s ->
  (forall id rp t, o = IReply id rp -> x_tasks s !! id = Some t -> honest L (i_height e) t rp) ->
  tracked L H b id k ids s -> tracked L (i_height e) b id k ids (fst (istep (i_now e) o s)).
Proof.
  intros Hb Hl Hs Hh T. apply (ok_state_mono _ _ _ _ Hl) in Hs.
  assert (T' : tracked L (i_height e) b id k ids s).
  { destruct T as [T1 T2]. split; [exact T1|]. intros t Et. destruct (T2 t Et) as (T3 & T4). split; [|exact T4].
    eapply task_ok_mono; eauto. }
  clear T. rename T' into T. destruct o as [| |a n f so|id' r|]; simpl.
  - destruct (begin_fetch _ _ s) as [[s' an]|] eqn:E; simpl; [|exact T].
    eapply tracked_begin; [exact Hs|apply range64|exact E|exact T].
  - unfold remove_all_values_older_than. destruct (existsb _ _); simpl; exact T.
  - rewrite get_blocks_query. destruct (query_ids a n f so s) as [ids'|] eqn:Eq; simpl; [|exact T].
    destruct (begin_fetch _ _ s) as [[s' an]|] eqn:E; simpl; [|exact T].
    eapply tracked_begin; [exact Hs|eapply query_ids_small; eauto|exact E|exact T].
  - destruct (x_tasks s !! id') as [t|] eqn:Et; simpl; [|exact T]. specialize (Hh id' r t eq_refl Et).
    destruct (os_tasks _ _ _ Hs id' t Et) as [Hi Ht]. destruct T as [T1 T2].
    assert (Hdel : tracked L (i_height e) b id k ids (set_tasks (delete id' (x_tasks s)) s)).
    { split; [exact T1|]. simpl. intros t' E'. apply lookup_delete_Some in E'. apply T2, E'. }
    destruct (receive (i_now e) id' t r s) as [[s' an]|] eqn:E; simpl; [|exact Hdel].
    destruct (receive_cases _ _ _ _ _ _ _ _ _ _ Hh (os_cache _ _ _ Hs) Ht E) as (Hc & ot & got & R & Hot).
    destruct ot as [t'|].
    + destruct Hot as (-> & E1 & (E2 & E3 & E4) & E5 & E6). split; [rewrite E4; exact T1|].
      rewrite E1. intros t2. destruct (decide (id' = id)) as [->|Hn].
      * rewrite lookup_insert. intros [= <-]. destruct (T2 t Et) as (T3 & T4 & T5). rewrite E5, E6. split; [|auto].
        exact (reaction_ok L (i_height e) b t _ _ _ ltac:(lia) R Hh T3).
      * rewrite lookup_insert_ne by exact Hn. apply T2.
    + destruct Hot as (s1 & (E1 & (E2 & E3 & E4) & F) & Hc1).
      destruct (reaction_ok L (i_height e) 0 t _ _ _ ltac:(lia) R Hh Ht) as [Hg _].
      destruct (finish_ok L (i_height e) _ _ _ _ _ Hg ltac:(rewrite E3; apply Hs) F) as (F1 & F2 & F3 & F4).
      split; [rewrite F4, E4; exact T1|]. rewrite F3, E1. apply Hdel.
  - split; [apply T|]. simpl. intros t E. rewrite lookup_empty in E. discriminate.
Qed.

Lemma tracked_run L b id k ids h : forall H s, b <= H -> ok_state L H s -> fair L H h s ->
  tracked L H b id k ids s -> tracked L (last_height H h) b id k ids (irun h s).
Proof.
  induction h as [|[e o] h IH]; intros H s Hb Hs F T; [exact T|]. destruct F as (Hl & _ & Hh & F). simpl.
  apply IH; [lia| |exact F|].
  - apply (istep_ok L H e o s); [lia|exact Hs|exact Hh].
  - apply (tracked_step L H b id k ids e o s); [exact Hb|lia|exact Hs|exact Hh|exact T].
Qed.

(** A call's answer, given at once or with a later reply. *)
Definition call_answer (h : ihistory) (e : ienv) (o : iop) (h2 : ihistory) (bs : list block) (total : N) : Prop :=
  (h2 = [] /\ snd (istep (i_now e) o (irun h istart)) = IBlocks bs total) \/
  (exists id h2' e' r, h2 = h2' ++ [(e', IReply id r)] /\
     snd (istep (i_now e) o (irun h istart)) = IWait id /\
     snd (istep (i_now e') (IReply id r) (irun (h ++ (e, o) :: h2') istart)) = IBlocks bs total).

Lemma finish_get d got s s' bs tot : finish (KGet d) got s = Some (s', IBlocks bs tot) -> bs = sort_blocks d got /\ tot = x_last s /\ s' = s.
Proof. simpl. intros E. injection E as <- <- <-. auto. Qed.

(** The blocks of an answer: those of the queried ids, apart from some that did not exist when the call was made. *)
Lemma call_answer_spec L h e a n f so h2 bs tot :
  fair L 0 (h ++ (e, IGet a n f so) :: h2) istart ->
  call_answer h e (IGet a n f so) h2 bs tot ->
  exists ids got cut, query_ids a n f so (irun h istart) = Some ids /\
    bs = sort_blocks (default false so) got /\ good_blocks L (last_height (i_height e) h2) got /\
    map fst got ++ cut ≡ₚ ids /\ Forall (fun i => i_height e <= i) cut.
Proof.
  intros F An. apply fair_app in F. destruct F as [F1 F2]. pose proof (fair_ok L h 0 istart (istart_ok L) F1) as Hs.
  set (H := last_height 0 h) in *. set (s := irun h istart) in *. destruct F2 as (Hl & _ & Hh & F2).
  assert (Hs' : ok_state L (i_height e) s) by (eapply ok_state_mono; [|exact Hs]; lia).
  assert (Hsn : ok_state L (i_height e) (fst (istep (i_now e) (IGet a n f so) s))) by (apply (istep_ok L H e _ s); [lia|exact Hs|exact Hh]).
  assert (Ei : istep (i_now e) (IGet a n f so) s = or_trap s
    match query_ids a n f so s with Some ids => begin_fetch (KGet (default false so)) ids s | None => None end)
    by (simpl; rewrite get_blocks_query; reflexivity).
  unfold call_answer in An. fold s in An. rewrite Ei in An, Hsn, F2.
  destruct (query_ids a n f so s) as [ids|] eqn:Eq.
  2: { destruct An as [[_ E]|(? & ? & ? & ? & _ & E & _)]; discriminate. }
  pose proof (query_ids_small _ _ _ _ _ _ _ _ Hs' Eq) as Hb.
  destruct (begin_fetch (KGet (default false so)) ids s) as [[s' an]|] eqn:E.
  2: { destruct An as [[_ E']|(? & ? & ? & ? & _ & E' & _)]; discriminate. }
  cbn [fst snd or_trap] in An, Hsn, F2.
  destruct (begin_cases L (i_height e) _ ids s s' an (os_cache _ _ _ Hs') Hb E) as [Hg [(_ & P & Fi)|(Ht & -> & Es)]].
  - destruct An as [[-> ->]|(? & ? & ? & ? & _ & E' & _)].
    2: { simpl in Fi. injection Fi as _ <-. discriminate. }
    apply finish_get in Fi. destruct Fi as (-> & _). exists ids, (cached_blocks (x_cache s) ids), []. splits; auto.
    rewrite app_nil_r. exact P.
  - destruct An as [[_ E']|(id & h2' & e' & r & -> & E' & An)]; [discriminate|]. injection E' as <-.
    apply fair_app in F2. destruct F2 as [F2 F3]. destruct F3 as (Hl3 & _ & Hh3 & _).
    rewrite irun_app in An.
    change (irun ((e, IGet a n f so) :: h2') (irun h istart)) with (irun h2' (fst (istep (i_now e) (IGet a n f so) s))) in An.
    rewrite Ei in An. cbn [fst or_trap] in An.
    assert (T : tracked L (i_height e) (i_height e) (x_next s) (KGet (default false so)) ids s').
    { subst s'. split; simpl; [lia|]. rewrite lookup_insert. intros t [= <-]. auto. }
    apply (tracked_run L _ _ _ _ h2' _ _ (N.le_refl _) Hsn F2) in T.
    pose proof (fair_ok L h2' _ _ Hsn F2) as Hs2. pose proof (fair_height _ _ _ _ F2) as Hle.
    set (H2 := last_height (i_height e) h2') in *. set (s2 := irun h2' s') in *.
    simpl in An. destruct (x_tasks s2 !! x_next s) as [t|] eqn:Et; [|discriminate].
    specialize (Hh3 _ _ t eq_refl Et). destruct (proj2 T t Et) as (T1 & T2 & T3).
    apply (task_ok_mono L _ (i_height e')) in T1; [|lia]. apply (ok_state_mono L _ (i_height e')) in Hs2; [|lia].
    destruct (receive (i_now e') (x_next s) t r s2) as [[s3 an]|] eqn:Er; [|discriminate]. simpl in An. subst an.
    destruct (receive_cases _ _ _ _ _ _ _ _ _ _ Hh3 (os_cache _ _ _ Hs2) T1 Er) as (Hc & ot & got & R & Hot).
    pose proof (reaction_ok L (i_height e') (i_height e) t _ _ _ ltac:(lia) R Hh3 T1) as Hr. destruct ot as [t'|].
    { destruct Hot as (? & _). discriminate. }
    destruct Hr as [Hgot (cut & P & Fc)]. destruct Hot as (s1 & (_ & _ & Fi) & _). rewrite T3 in Fi.
    apply finish_get in Fi. destruct Fi as (-> & _). exists ids, got, cut. splits; auto.
    + rewrite last_height_app. exact Hgot.
    + rewrite <- T2. exact P.
Qed.

(** ** The index update *)
Definition upd_ok (H n : N) (t : task) : Prop :=
  exists m, map fst (k_got t) ++ awaited t ≡ₚ range n (n + m) /\
    Forall (fun c => 0 < snd c /\ (fst c + snd c <= H \/ fst c + snd c = n + m)) (open_chunks t).

Lemma upd_ok_mono H H' n t : H <= H' -> upd_ok H n t -> upd_ok H' n t.
Proof.
  intros Hl (m & P & F). exists m. split; [exact P|]. eapply Forall_impl; [exact F|]. simpl. intros c []; split; [assumption|lia].
Qed.

Lemma elem_ids_of i l : i ∈ ids_of l <-> exists c, c ∈ l /\ fst c <= i < fst c + snd c.
Proof.
  unfold ids_of. rewrite elem_of_list_In, in_concat. split.
  - intros (x & Hx & Hi). apply in_map_iff in Hx. destruct Hx as (c & <- & Hc). exists c.
    apply elem_of_list_In in Hc; apply elem_of_list_In in Hi. apply elem_of_range in Hi. auto.
  - intros (c & Hc & Hi). exists (range (fst c) (fst c + snd c)). split.
    + apply in_map_iff. exists c. split; [reflexivity|]. apply elem_of_list_In, Hc.
    + apply elem_of_list_In, elem_of_range, Hi.
Qed.

Lemma reaction_upd L H b n t r ot got : reaction t r ot got -> honest L H t r -> task_ok L H b t -> upd_ok H n t ->
  match ot with
  | Some t' => upd_ok H n t'
  | None => exists m, map fst got ≡ₚ range n (n + m)
  end.
Proof.
  intros R Hh Ht (m & P & F). destruct (reaction_ids _ _ _ _ _ _ _ R Hh Ht) as (cf & ct & Hcut & Hm).
  assert (exists m', (forall l, l ++ range cf ct ≡ₚ map fst (k_got t) ++ awaited t -> l ≡ₚ range n (n + m')) /\
    Forall (fun c => 0 < snd c /\ (fst c + snd c <= H \/ fst c + snd c = n + m'))
      match k_arch t with [] => tail (open_chunks t) | _ => open_chunks t end) as (m' & Hp & Hf).
  { destruct (N.eq_dec cf ct) as [->|Hne].
    - exists m. split.
      + intros l Hl. rewrite range_nil, app_nil_r in Hl by lia. rewrite Hl. exact P.
      + destruct (k_arch t); [|exact F]. destruct (open_chunks t); [constructor|]. inversion F; assumption.
    - destruct Hcut as [?|(st & l & rest & Hle & Ea & Ek & -> & Hst)]; [congruence|].
      assert (Eo : open_chunks t = (st, l) :: rest) by (unfold open_chunks; rewrite Ea; exact Ek).
      assert (Nd : NoDup (ids_of ((st, l) :: rest))).
      { assert (Nd : NoDup (map fst (k_got t) ++ awaited t)) by (rewrite P; apply NoDup_range).
        apply NoDup_app in Nd. destruct Nd as (_ & _ & Nd). unfold awaited in Nd. rewrite Eo in Nd.
        apply NoDup_app in Nd. destruct Nd as (_ & _ & Nd). apply NoDup_app in Nd. apply Nd. }
      rewrite Eo in F |- *. inversion F as [|? ? [Hl Hend] F']; subst. simpl in Hl, Hend.
      assert (Hend' : st + l = n + m) by lia. clear Hend.
      assert (Hin : st ∈ range n (n + m)).
      { rewrite <- P. unfold awaited. rewrite Eo, ids_of_cons, !elem_of_app. right. right. right. left. apply elem_of_range. lia. }
      apply elem_of_range in Hin. exists (cf - n). replace (n + (cf - n)) with cf by lia. split.
      + intros l' Hl'. rewrite P, Hend', (range_app n cf (n + m)) in Hl' by lia. eapply Permutation_app_inv_r, Hl'.
      + rewrite Ea. simpl. apply Forall_forall. intros c Hc. rewrite Forall_forall in F'. destruct (F' c Hc) as [Hc1 Hc2].
        split; [exact Hc1|]. left. destruct Hc2 as [Hc2|Hc2]; [exact Hc2|exfalso].
        rewrite ids_of_cons in Nd. apply NoDup_app in Nd. destruct Nd as (_ & Nd & _). apply (Nd (n + m - 1)).
        * apply elem_of_range. lia.
        * apply elem_ids_of. exists c. split; [exact Hc|lia]. }
  destruct ot as [t'|].
  - destruct Hm as (M1 & _ & _ & _ & _ & M6). exists m'. split; [|rewrite M6; exact Hf].
    apply Hp. rewrite <- app_assoc. exact M1.
  - destruct Hm as (M1 & _). exists m'. apply Hp, M1.
Qed.

Record upd_state (L : chain) (H : N) (s : istate) : Prop := mkUpdState {
  us_last : x_last s <= H;
  us_exact : exact_index L (x_index s) (x_last s);
  us_upd : forall id t n, x_tasks s !! id = Some t -> k_kind t = KUpdate n -> n = x_last s /\ upd_ok H n t;
  us_one : forall id id' t t' n n', x_tasks s !! id = Some t -> x_tasks s !! id' = Some t' ->
    k_kind t = KUpdate n -> k_kind t' = KUpdate n' -> id = id'
}.

Lemma finish_upd L H n m got s s' a : H < two64 -> x_last s <= H -> good_blocks L H got -> map fst got ≡ₚ range n (n + m) ->
  n = x_last s -> exact_index L (x_index s) n -> finish (KUpdate n) got s = Some (s', a) ->
  exact_index L (x_index s') (x_last s') /\ n <= x_last s' <= H /\ x_tasks s' = x_tasks s /\ x_next s' = x_next s.
Proof.
  intros HH Hl Hg P -> Hx. unfold finish.
  assert (Hm : x_last s + m <= H).
  { destruct (N.eq_dec m 0) as [->|Hm]; [lia|].
    assert (I : x_last s + m - 1 ∈ map fst got) by (rewrite P; apply elem_of_range; lia).
    apply elem_of_list_fmap in I. destruct I as (b & E & Hb). unfold good_blocks in Hg. rewrite Forall_forall in Hg.
    apply Hg in Hb. lia. }
  rewrite (sort_asc_good L H got _ Hg P (sorted_lt_le _ (sorted_range _ _))).
  destruct (add_blocks _ _ _) as [[n' ix]|] eqn:E; [|discriminate]. intros E2. injection E2 as <- <-. simpl.
  unfold range in E. apply add_blocks_spec in E; [|lia|exact Hx]. destruct E as [E1 E2]. splits; auto; lia.
Qed.

Lemma begin_upd_ok L H n c : cache_ok L H c -> n < two64 ->
  exists m, range n (add64 n 100) = range n (n + m) /\
    Forall (fun c => 0 < snd c /\ (fst c + snd c <= H \/ fst c + snd c = n + m)) (chunk_requests c (range n (n + m))).
Proof.
  intros Hc Hn. exists (add64 n 100 - n).
  assert (Er : range n (add64 n 100) = range n (n + (add64 n 100 - n))).
  { destruct (N.le_gt_cases n (add64 n 100)); [f_equal; lia|]. rewrite !range_nil by lia. reflexivity. }
  split; [exact Er|]. rewrite <- Er. unfold chunk_requests. remember (add64 n 100 - n) as m eqn:Em.
  set (ids := range n (add64 n 100)) in *. set (u := uncached_ids c ids).
  assert (Hu : Forall (fun i => i < two64) (merge_sort N.le u)).
  { rewrite merge_sort_Permutation. apply Forall_forall. intros i Hi. apply elem_of_list_filter in Hi. destruct Hi as [_ Hi].
    pose proof (range64 n n 100) as F. rewrite Forall_forall in F. apply F, Hi. }
  assert (Es : merge_sort N.le u = u).
  { apply (StronglySorted_unique N.le); [apply merge_sort_sorted| |apply merge_sort_Permutation].
    apply sorted_lt_le. unfold u, uncached_ids. pose proof (sorted_range n (add64 n 100)) as S. fold ids in S.
    clear -S. induction S as [|x l S IH F]; [constructor|]. rewrite filter_cons. destruct (decide _); [|exact IH].
    constructor; [exact IH|]. rewrite Forall_forall in F |- *. intros y Hy. apply elem_of_list_filter in Hy. apply F, Hy. }
  rewrite Es in *.
  assert (Su : StronglySorted N.lt u).
  { unfold u, uncached_ids. pose proof (sorted_range n (add64 n 100)) as S. fold ids in S.
    clear -S. induction S as [|x l S IH F]; [constructor|]. rewrite filter_cons. destruct (decide _); [|exact IH].
    constructor; [exact IH|]. rewrite Forall_forall in F |- *. intros y Hy. apply elem_of_list_filter in Hy. apply F, Hy. }
  destruct (group_spec u (sorted_lt_le _ Su) Hu) as [G1 G2]. pose proof (group_maximal u Su Hu) as G3.
  apply Forall_map. rewrite Forall_forall in G2, G3 |- *. intros g Hg. destruct (G2 g Hg) as [Gn Gr]. specialize (G3 g Hg).
  unfold chunk_request. simpl. fold (chunk_end g).
  assert (Hlen : 0 < nlen g) by (destruct g; [congruence|unfold nlen; simpl; lia]).
  split; [exact Hlen|].
  assert (I : chunk_end g - 1 ∈ u).
  { rewrite <- G1, elem_of_list_In, in_concat. exists g. rewrite <- !elem_of_list_In. split; [exact Hg|].
    assert (X : chunk_end g - 1 ∈ range (hd 0 g) (hd 0 g + nlen g)) by (apply elem_of_range; unfold chunk_end; lia).
    rewrite <- Gr in X. exact X. }
  apply elem_of_list_filter in I. destruct I as [_ I]. unfold ids in I. apply elem_of_range in I.
  destruct (N.eq_dec (chunk_end g) (n + m)) as [?|Hne]; [right; assumption|left].
  assert (I2 : chunk_end g ∈ ids).
  { apply elem_of_range. clear -I Hne Em Hlen. pose proof (N.le_add_r (nlen g) (hd 0 g)). assert (0 < chunk_end g) by (unfold chunk_end; lia). lia. }
  destruct (try_get_value c (chunk_end g)) as [v|] eqn:Ev.
  - unfold try_get_value in Ev. destruct (c !! chunk_end g) as [[ts v']|] eqn:Ec; [|discriminate].
    apply Hc in Ec. lia.
  - exfalso. apply G3. apply elem_of_list_filter. auto.
Qed.

Lemma begin_get_upd L H d ids s s' a : ok_state L H s -> Forall (fun i => i < two64) ids ->
  begin_fetch (KGet d) ids s = Some (s', a) -> upd_state L H s -> upd_state L H s'.
Proof.
  intros Hs Hb E [A B C D]. destruct (begin_cases L H _ ids s s' a (os_cache _ _ _ Hs) Hb E) as [Hg [(_ & P & F)|(Ht & -> & ->)]].
  - simpl in F. injection F as <- _. constructor; auto.
  - constructor; simpl; auto.
    + intros id t n. destruct (decide (x_next s = id)) as [<-|Hn].
      * rewrite lookup_insert. intros [= <-]. discriminate.
      * rewrite lookup_insert_ne by exact Hn. apply C.
    + intros id id' t t' n n'. destruct (decide (x_next s = id)) as [<-|Hn].
      * rewrite lookup_insert. intros [= <-]. discriminate.
      * rewrite lookup_insert_ne by exact Hn. destruct (decide (x_next s = id')) as [<-|Hn'].
        -- rewrite lookup_insert. intros _ [= <-] _. discriminate.
        -- rewrite lookup_insert_ne by exact Hn'. apply D.
Qed.

Lemma upd_state_mono L H H' s : H <= H' -> upd_state L H s -> upd_state L H' s.
Proof.
  intros Hl [A B C D]. constructor; auto; [lia|]. intros id t n Et Ek. destruct (C id t n Et Ek). split; [assumption|].
  eapply upd_ok_mono; eauto.
Qed.

Lemma upd_step L H e o s : H <= i_height e -> i_height e < two64 -> ok_state L H s ->
  (forall id rp t, o = IReply id rp -> x_tasks s !! id = Some t -> honest L (i_height e) t rp) ->
  (o = IUpdate -> ~ updating s) -> upd_state L H s -> upd_state L (i_height e) (fst (istep (i_now e) o s)) /\
  x_last s <= x_last (fst (istep (i_now e) o s)).
Proof.
  intros Hl HH Hs Hh Ho U. apply (ok_state_mono _ _ _ _ Hl) in Hs. apply (upd_state_mono _ _ _ _ Hl) in U.
  destruct o as [| |a n f so|id' r|]; simpl.
  - specialize (Ho eq_refl). destruct (begin_fetch _ _ s) as [[s' an]|] eqn:E; simpl; [|split; [exact U|lia]].
    destruct U as [A B C D].
    destruct (begin_upd_ok L (i_height e) (x_last s) (x_cache s) (os_cache _ _ _ Hs)) as (m & Er & Fm); [lia|].
    rewrite Er in E. pose proof (range64 (x_last s) (x_last s) 100) as Hb. rewrite Er in Hb.
    destruct (begin_cases L (i_height e) _ _ s s' an (os_cache _ _ _ Hs) Hb E) as [Hg [(_ & P & F)|(Ht & -> & ->)]].
    + destruct (finish_upd _ _ _ _ _ _ _ _ HH A Hg P eq_refl B F) as (F1 & F2 & F3 & F4). split; [|lia].
      constructor; [lia|exact F1| |]; rewrite F3.
      * intros id t n Et Ek. exfalso. apply Ho. exists id, t, n. auto.
      * intros id id' t t' n n' Et Et' Ek Ek'. exfalso. apply Ho. exists id, t, n. auto.
    + simpl. split; [|lia].
      assert (Hno : forall id t n, x_tasks s !! id = Some t -> k_kind t = KUpdate n -> False).
      { intros id t n Et Ek. apply Ho. exists id, t, n. auto. }
      constructor; simpl; auto.
      * intros id t n. destruct (decide (x_next s = id)) as [<-|Hn].
        -- rewrite lookup_insert. intros [= <-]. simpl. intros [= <-]. split; [reflexivity|]. exists m. simpl. split.
           ++ exact (fetch_ids (x_cache s) _ Hb).
           ++ exact Fm.
        -- rewrite lookup_insert_ne by exact Hn. intros Et Ek. exfalso. eapply Hno; eauto.
      * intros id id' t t' n n'. destruct (decide (x_next s = id)) as [<-|Hn].
        -- destruct (decide (x_next s = id')) as [<-|Hn']; [auto|]. rewrite (lookup_insert_ne _ _ id') by exact Hn'.
           intros _ Et' _ Ek'. exfalso. eapply Hno; eauto.
        -- rewrite lookup_insert_ne by exact Hn. intros Et _ Ek _. exfalso. eapply Hno; eauto.
  - unfold remove_all_values_older_than. destruct (existsb _ _); simpl; (split; [|lia]); [exact U|].
    destruct U; constructor; auto.
  - rewrite get_blocks_query. destruct (query_ids a n f so s) as [ids'|] eqn:Eq; simpl; [|split; [exact U|lia]].
    destruct (begin_fetch _ _ s) as [[s' an]|] eqn:E; simpl; [|split; [exact U|lia]].
    pose proof (query_ids_small _ _ _ _ _ _ _ _ Hs Eq) as Hb. split; [eapply begin_get_upd; eauto|].
    destruct (begin_cases L (i_height e) _ _ s s' an (os_cache _ _ _ Hs) Hb E) as [Hg [(_ & P & F)|(Ht & -> & ->)]]; [|simpl; lia].
    simpl in F. injection F as <- _. lia.
  - destruct (x_tasks s !! id') as [t|] eqn:Et; simpl; [|split; [exact U|lia]]. specialize (Hh id' r t eq_refl Et).
    destruct (os_tasks _ _ _ Hs id' t Et) as [Hi Ht]. destruct U as [A B C D].
    assert (Hdel : upd_state L (i_height e) (set_tasks (delete id' (x_tasks s)) s)).
    { constructor; simpl; auto.
      - intros id t' n E' K. apply lookup_delete_Some in E'. exact (C _ _ _ (proj2 E') K).
      - intros id id2 t1 t2 n n' E1 E2 K1 K2. apply lookup_delete_Some in E1. apply lookup_delete_Some in E2.
        exact (D _ _ _ _ _ _ (proj2 E1) (proj2 E2) K1 K2). }
    destruct (receive (i_now e) id' t r s) as [[s' an]|] eqn:E; simpl; [|split; [exact Hdel|lia]].
    destruct (receive_cases _ _ _ _ _ _ _ _ _ _ Hh (os_cache _ _ _ Hs) Ht E) as (Hc & ot & got & R & Hot).
    destruct ot as [t'|].
    + destruct Hot as (-> & E1 & (E2 & E3 & E4) & E5 & E6). split; [|rewrite E2; lia].
      constructor; rewrite ?E1, ?E2, ?E3; auto.
      * intros id t2 n. destruct (decide (id' = id)) as [->|Hn].
        -- rewrite lookup_insert. intros [= <-] Ek. rewrite E6 in Ek. destruct (C _ _ _ Et Ek) as [-> Hu]. split; [reflexivity|].
           exact (reaction_upd _ _ _ _ _ _ _ _ R Hh Ht Hu).
        -- rewrite lookup_insert_ne by exact Hn. apply C.
      * intros id id2 t1 t2 n n'.
        assert (Hback : forall i ti ni, <[id' := t']> (x_tasks s) !! i = Some ti -> k_kind ti = KUpdate ni ->
                   exists ti', x_tasks s !! i = Some ti' /\ k_kind ti' = KUpdate ni).
        { intros i ti ni. destruct (decide (id' = i)) as [->|Hn].
          - rewrite lookup_insert. intros [= <-] Ek. exists t. split; [exact Et|congruence].
          - rewrite lookup_insert_ne by exact Hn. eauto. }
        intros L1 L2 K1 K2. destruct (Hback _ _ _ L1 K1) as (? & ? & ?). destruct (Hback _ _ _ L2 K2) as (? & ? & ?). eauto.
    + destruct Hot as (s1 & (E1 & (E2 & E3 & E4) & F) & Hc1).
      destruct (reaction_ok L (i_height e) 0 t _ _ _ ltac:(lia) R Hh Ht) as [Hg _].
      destruct (k_kind t) as [n|d] eqn:Ek.
      * destruct (C _ _ _ Et Ek) as [-> Hu].
        destruct (reaction_upd _ _ _ _ _ _ _ _ R Hh Ht Hu) as (m & P).
        rewrite <- E2 in F. destruct (finish_upd L (i_height e) (x_last s1) m got s1 s' an HH) as (F1 & F2 & F3 & F4); auto.
        { rewrite E2. exact A. } { rewrite E2. exact P. } { rewrite E2, E3. exact B. }
        split; [|rewrite <- E2; lia]. constructor; [lia|exact F1| |]; rewrite F3, E1.
        -- intros id t1 n1 L1 K1. exfalso. apply lookup_delete_Some in L1. destruct L1 as [L1 L2]. apply L1. eapply D; eauto.
        -- intros id id2 t1 t2 n1 n2 L1 L2 K1 K2. apply lookup_delete_Some in L1. apply lookup_delete_Some in L2.
           exact (D _ _ _ _ _ _ (proj2 L1) (proj2 L2) K1 K2).
      * simpl in F. injection F as <- _. split; [|rewrite E2; lia]. constructor; rewrite ?E1, ?E2, ?E3; auto; apply Hdel.
  - split; [|lia]. destruct U; constructor; auto; simpl; intros *; rewrite lookup_empty; discriminate.
Qed.

Lemma istart_upd L H : upd_state L H istart.
Proof.
  constructor; simpl; try lia; try (intros *; rewrite lookup_empty; discriminate).
  split; [|intros; lia]. intros k. rewrite lookup_empty. reflexivity.
Qed.

Lemma upd_run L h : forall H s, ok_state L H s -> upd_state L H s -> fair L H h s -> no_overlap h s ->
  upd_state L (last_height H h) (irun h s) /\ x_last s <= x_last (irun h s).
Proof.
  induction h as [|[e o] h IH]; intros H s Hs U F N; [split; [exact U|simpl; lia]|].
  destruct F as (Hl & _ & Hh & F). destruct N as [N1 N2]. simpl.
  destruct (upd_step L H e o s) as [U' Hm]; auto; try lia.
  destruct (IH (i_height e) _ ltac:(apply (istep_ok L H e o s); [lia|exact Hs|exact Hh]) U' F N2). split; [assumption|lia].
Qed.

(** ** What a block is about, in the words of the specification *)
Lemma field_vget m k : field (VMap m) k = vget m k.
Proof.
  unfold field. induction m as [|[k' v] m IH]; [reflexivity|]. simpl. rewrite <- IH. clear IH.
  destruct (decide (k' = k)) as [->|Hn]; simpl.
  - rewrite bool_decide_eq_true_2 by reflexivity. reflexivity.
  - rewrite bool_decide_eq_false_2 by exact Hn. destruct (list_find _ m) as [[? []]|]; reflexivity.
Qed.

Lemma btype_parse_text s b : btype_parse s = Some b <-> lowercase s = btype_text b.
Proof.
  split.
  - unfold btype_parse. intros H.
    repeat match type of H with (if bool_decide ?P then _ else _) = _ =>
      destruct (bool_decide_reflect P) as [E|_]; [injection H as <-; exact E|] end. discriminate.
  - unfold btype_parse. intros ->. destruct b; vm_compute; reflexivity.
Qed.

Lemma has_type_block v ty : has_type v ty <-> exists b, block_type v = Some b /\ btype_text b = ty.
Proof.
  unfold has_type, block_type. split.
  - intros (x & E & Hl & Hin). destruct v as [| | | | |m]; try discriminate. rewrite field_vget in E. rewrite E.
    assert (exists b, btype_text b = ty) as (b & Hb).
    { repeat (apply elem_of_cons in Hin; destruct Hin as [->|Hin]);
        [exists BMint|exists BBurn|exists BTransfer|exists BUpdate|exists BApprove|exists BCollApprove|exists BRevoke|
         exists BRevokeColl|exists BTransferFrom|inversion Hin]; reflexivity. }
    exists b. split; [|exact Hb]. apply btype_parse_text. congruence.
  - intros (b & E & <-). destruct v as [| | | | |m]; try discriminate. rewrite field_vget.
    destruct (vget m "btype") as [[]|]; try discriminate. apply btype_parse_text in E. eexists. split; [reflexivity|].
    split; [exact E|]. destruct b; apply (bool_decide_eq_true_1 _); vm_compute; reflexivity.
Qed.

Lemma btype_text_inj b b' : btype_text b = btype_text b' -> b = b'.
Proof. destruct b, b'; (reflexivity || discriminate). Qed.
Lemma roles_fields b : roles (btype_text b) = account_fields b.
Proof. destruct b; vm_compute; reflexivity. Qed.
Lemma token_types_spec b : btype_text b ∈ token_types <-> without_token b = false.
Proof.
  rewrite <- (bool_decide_eq_true (btype_text b ∈ token_types)). destruct b; vm_compute; split; congruence.
Qed.

Lemma tx_map_field v t : tx_map v = Some t <-> field v "tx" = Some (VMap t).
Proof.
  unfold tx_map. destruct v as [| | | | |m]; try (split; discriminate). rewrite field_vget.
  destruct (vget m "tx") as [[]|]; split; congruence.
Qed.

Lemma named_account_spec t f k : (exists a, a ∈ named_account t f /\ akey a = k) <->
  exists p, field (VMap t) f = Some (VText (principal_text p)) /\ (length p <= 29)%nat /\ Forall (fun b => b < 256) p /\ k = (p, default_sub).
Proof.
  rewrite field_vget. unfold named_account. split.
  - intros (a & Ha & <-). destruct (vget t f) as [[]|]; try (inversion Ha; fail).
    destruct (principal_parse s) as [p|] eqn:E; [|inversion Ha]. apply elem_of_list_singleton in Ha as ->.
    destruct (principal_parse_inv _ _ E) as [-> Hl]. exists p. repeat split; auto. eapply principal_parse_small, E.
  - intros (p & -> & Hl & Hs & ->). rewrite principal_parse_text by assumption. exists (mkAcc p None).
    split; [left|reflexivity].
Qed.

Lemma keys_about v k : k ∈ keys_of v <-> about v k.
Proof.
  unfold keys_of. destruct (block_type v) as [b|] eqn:Eb.
  2: { split; [intros I; inversion I|]. intros A. exfalso.
       assert (exists ty, has_type v ty) as (ty & T) by (destruct k; simpl in A; naive_solver).
       apply has_type_block in T. destruct T as (b & E & _). congruence. }
  unfold entry_keys. rewrite !elem_of_app, elem_of_list_singleton.
  assert (T : forall ty, has_type v ty <-> ty = btype_text b).
  { intros ty. rewrite has_type_block. split; [intros (b' & E & <-); congruence|intros ->; eauto]. }
  destruct k as [a|s|n]; simpl.
  - split.
    + intros [I|[I|I]]; [|discriminate|destruct (extract_token_id b v); [apply elem_of_list_singleton in I; discriminate|inversion I]].
      apply elem_of_list_fmap in I. destruct I as (ac & Ek & I). injection Ek as ->.
      unfold extract_accounts in I. destruct (tx_map v) as [t|] eqn:Et; [|inversion I].
      apply elem_of_list_In, in_concat in I. destruct I as (l & Hl & I). apply in_map_iff in Hl. destruct Hl as (f & <- & Hf).
      apply elem_of_list_In in Hf. apply elem_of_list_In in I. exists (btype_text b), f. rewrite roles_fields.
      split; [apply T; reflexivity|]. split; [exact Hf|].
      assert (N1 : exists a, a ∈ named_account t f /\ akey a = akey ac) by eauto.
      apply named_account_spec in N1. destruct N1 as (p & N1). exists (VMap t), p. split; [apply tx_map_field, Et|exact N1].
    + intros (ty & f & Ht & Hf & t & p & Et & N1). apply T in Ht. subst ty. rewrite roles_fields in Hf. left.
      destruct t as [| | | | |t]; try (destruct N1; discriminate).
      assert (N2 : exists a0, a0 ∈ named_account t f /\ akey a0 = a) by (apply named_account_spec; eauto).
      destruct N2 as (ac & Ha & <-). apply elem_of_list_fmap. exists ac. split; [reflexivity|].
      unfold extract_accounts. apply tx_map_field in Et. rewrite Et. apply elem_of_list_In, in_concat.
      exists (named_account t f). split; [apply in_map, elem_of_list_In, Hf|apply elem_of_list_In, Ha].
  - rewrite T. split.
    + intros [I|[I|I]]; [apply elem_of_list_fmap in I; destruct I as (? & ? & _); discriminate|congruence|].
      destruct (extract_token_id b v); [apply elem_of_list_singleton in I; discriminate|inversion I].
    + intros ->. auto.
  - unfold extract_token_id. split.
    + intros [I|[I|I]]; [apply elem_of_list_fmap in I; destruct I as (? & ? & _); discriminate|discriminate|].
      destruct (without_token b) eqn:Ew; [inversion I|]. destruct (tx_map v) as [t|] eqn:Et; [|inversion I].
      destruct (vget t "tid") as [[]|] eqn:Ev; try (inversion I; fail). apply elem_of_list_singleton in I. injection I as ->.
      exists (btype_text b), (VMap t). rewrite field_vget. splits; [apply T; reflexivity|apply token_types_spec, Ew|apply tx_map_field, Et|exact Ev].
    + intros (ty & t & Ht & Hty & Et & Ev). apply T in Ht. subst ty. apply token_types_spec in Hty. rewrite Hty.
      destruct t as [| | | | |t]; try discriminate. apply tx_map_field in Et. rewrite Et. rewrite field_vget in Ev. rewrite Ev.
      right. right. left.
Qed.

Lemma enterable_understood v : enterable v <-> understood v.
Proof.
  unfold enterable, understood. split.
  - intros [H1 H2]. split.
    + destruct (block_type v) as [b|] eqn:Eb; [|congruence]. exists (btype_text b). apply has_type_block. eauto.
    + intros n A. apply keys_about in A. rewrite Forall_forall in H2. exact (H2 _ A).
  - intros [(ty & T) H]. apply has_type_block in T. destruct T as (b & E & _). split; [congruence|].
    apply Forall_forall. intros k Hk. apply keys_about in Hk. destruct k; simpl; auto.
Qed.

(** ** Entries *)
Lemma entries_elem L k n i : i ∈ entries L k n <-> i < n /\ k ∈ keys_of (L i).
Proof.
  unfold entries. rewrite elem_of_list_In, <- in_rev, in_concat. split.
  - intros (l & Hl & Hi). apply in_map_iff in Hl. destruct Hl as (j & <- & Hj).
    apply elem_of_list_In in Hi. apply elem_of_repeat in Hi. destruct Hi as [-> Ho].
    apply elem_of_list_In, elem_of_range in Hj. split; [lia|apply occurs_elem, Ho].
  - intros [Hi Hk]. exists (repeat i (occurs k (keys_of (L i)))). split.
    + apply in_map_iff. exists i. split; [reflexivity|]. apply elem_of_list_In, elem_of_range. lia.
    + unfold occurs. destruct (filter (fun x => x = k) (keys_of (L i))) as [|x r] eqn:E; [|left; reflexivity].
      assert (I : k ∈ filter (fun x => x = k) (keys_of (L i))) by (apply elem_of_list_filter; auto).
      rewrite E in I. inversion I.
Qed.
Lemma entries_sorted L k n : StronglySorted (fun a b => b <= a) (entries L k n).
Proof.
  induction n as [|n IH] using N.peano_ind.
  - constructor.
  - rewrite <- N.add_1_r, entries_succ. generalize (occurs k (keys_of (L n))) as c. induction c as [|c IHc]; simpl; [exact IH|].
    constructor; [exact IHc|]. apply Forall_app. split; apply Forall_forall; intros x Hx.
    + apply elem_of_repeat in Hx. destruct Hx. lia.
    + apply entries_elem in Hx. lia.
Qed.
Lemma entries_strict L k n : (forall i, i < n -> (occurs k (keys_of (L i)) <= 1)%nat) -> StronglySorted (fun a b => b < a) (entries L k n).
Proof.
  induction n as [|n IH] using N.peano_ind; intros Ho.
  - constructor.
  - rewrite <- N.add_1_r, entries_succ. specialize (IH ltac:(intros; apply Ho; lia)).
    specialize (Ho n ltac:(lia)). destruct (occurs k (keys_of (L n))) as [|[|c]]; [exact IH| |lia].
    simpl. constructor; [exact IH|]. apply Forall_forall. intros x Hx. apply entries_elem in Hx. lia.
Qed.
