(** Theorems about the index canister: C55 - C64. *)
From Verif Require Import Base ModelPrincipal ModelState ModelIndex SpecIndex ProofsPrincipal ProofsIndex.

(** Ids listed under a key. *)
Definition listed (s : istate) (k : ikey) : list N := default [] (x_index s !! k).

(** ** A small ledger for the examples: a mint, a transfer, a transfer by a spender who is also the owner *)
Definition p1 : principal := [1].
Definition p2 : principal := [2].
Definition blk (ty : string) (fields : list (string * value)) : value := VMap [("btype", VText ty); ("tx", VMap fields)]%string.
Definition ptext (p : principal) : value := VText (principal_text p).
Definition chain1 : chain := fun i =>
  if i =? 0 then blk "7mint" [("tid", VNat 5); ("to", ptext p1)]%string
  else if i =? 1 then blk "7xfer" [("from", ptext p1); ("tid", VNat 5); ("to", ptext p2)]%string
  else if i =? 2 then blk "7mint" [("tid", VNat 6); ("to", ptext p1)]%string
  else blk "37xfer" [("from", ptext p2); ("spender", ptext p2); ("tid", VNat 5); ("to", ptext p1)]%string.
Definition at_ (now height : N) : ienv := mkIenv now height.

(** Two rounds; the ledger has archived its first two blocks. *)
Definition rounds : ihistory :=
  [(at_ 10 2, IUpdate);
   (at_ 11 2, IReply 0 (RLedger [] [(1, chain1 1); (0, chain1 0)]));
   (at_ 20 3, IUpdate);
   (at_ 21 3, IReply 1 (RLedger [[(2, 1)]] []));
   (at_ 22 3, IReply 1 (RArchive [(2, chain1 2)]))].

Ltac fair_step :=
  split; [split; [vm_compute; discriminate|vm_compute; reflexivity]|split; [try exact I; split; vm_compute; reflexivity|split;
    [intros ? ? ? Ho Ht; first [discriminate Ho | injection Ho as <- <-; vm_compute in Ht; injection Ht as <-]|]]].

Lemma rounds_fair : fair chain1 0 rounds istart.
Proof.
  unfold rounds.
  fair_step. fair_step.
  { do 3 eexists. split; [reflexivity|]. split; [reflexivity|]. split; [|repeat constructor].
    vm_compute. apply perm_swap. }
  fair_step. fair_step.
  { do 3 eexists. split; [reflexivity|]. split; [reflexivity|]. split; [|repeat constructor]. reflexivity. }
  fair_step.
  { do 2 eexists. split; [reflexivity|]. vm_compute. reflexivity. }
  exact I.
Qed.

Lemma not_updating s : map_to_list (x_tasks s) = [] -> ~ updating s.
Proof. intros E (id & t & n & Et & _). apply map_to_list_empty_iff in E. rewrite E, lookup_empty in Et. discriminate. Qed.

Ltac overlap_step := split; [first [discriminate | intros _; apply not_updating; vm_compute; reflexivity]|].

Lemma rounds_no_overlap : no_overlap rounds istart.
Proof.
  unfold rounds. do 5 overlap_step. exact I.
Qed.

(** ** C55 *)
Theorem C55_index_exact L h : fair L 0 h istart -> no_overlap h istart ->
  let s := irun h istart in
  (forall k i, i ∈ listed s k <-> i < istatus s /\ about (L i) k) /\
  (forall k, StronglySorted (fun a b => b <= a) (listed s k)) /\
  istatus s <= last_height 0 h.
Proof.
  intros F N s. destruct (upd_run L h 0 istart (istart_ok L) (istart_upd L 0) F N) as [[A [B1 B2] C D] _].
  fold s in A, B1, B2. unfold listed, istatus. splits.
  - intros k i. rewrite B1, entries_elem, keys_about. reflexivity.
  - intros k. rewrite B1. apply entries_sorted.
  - exact A.
Qed.
Print Assumptions C55_index_exact.

(** Even if updates overlap, nothing wrong is listed. *)
Theorem C55_index_sound L h k i : fair L 0 h istart -> i ∈ listed (irun h istart) k -> i < last_height 0 h /\ about (L i) k.
Proof.
  intros F I. pose proof (fair_ok L h 0 istart (istart_ok L) F) as O. apply (os_index _ _ _ O) in I.
  destruct I as (I1 & _ & I2). split; [exact I1|apply keys_about, I2].
Qed.
Print Assumptions C55_index_sound.

Example C55_example :
  fair chain1 0 rounds istart /\ no_overlap rounds istart /\
  istatus (irun rounds istart) = 3 /\
  listed (irun rounds istart) (KType "7mint") = [2; 0] /\
  listed (irun rounds istart) (KToken 5) = [1; 0] /\
  listed (irun rounds istart) (KAccount (p1, default_sub)) = [2; 1; 0] /\
  listed (irun rounds istart) (KAccount (p2, default_sub)) = [1].
Proof. split; [exact rounds_fair|]. split; [exact rounds_no_overlap|]. splits; vm_compute; reflexivity. Qed.

(** ** C56 *)

(** An account named twice by one block is listed twice. *)
Theorem C56_self_transfer_refuted : exists L h, fair L 0 h istart /\ no_overlap h istart /\
  listed (irun h istart) (KAccount (p2, default_sub)) = [0; 0].
Proof.
  exists (fun i => chain1 (i + 3)), [(at_ 10 1, IUpdate); (at_ 11 1, IReply 0 (RLedger [] [(0, chain1 3)]))].
  split; [|split].
  - fair_step. fair_step; [|exact I].
    do 3 eexists. split; [reflexivity|]. split; [reflexivity|]. split; [|repeat constructor]. reflexivity.
  - do 2 overlap_step. exact I.
  - vm_compute. reflexivity.
Qed.
Print Assumptions C56_self_transfer_refuted.

(** Overlapping rounds list a block twice. *)
Theorem C56_overlap_refuted : exists L h, fair L 0 h istart /\
  listed (irun h istart) (KToken 5) = [0; 0].
Proof.
  exists chain1, [(at_ 10 1, IUpdate); (at_ 11 1, IUpdate); (at_ 12 1, IReply 0 (RLedger [] [(0, chain1 0)]));
             (at_ 13 1, IReply 1 (RLedger [] [(0, chain1 0)]))].
  split.
  - fair_step. fair_step. fair_step.
    { do 3 eexists. split; [reflexivity|]. split; [reflexivity|]. split; [|repeat constructor]. reflexivity. }
    fair_step; [|exact I].
    do 3 eexists. split; [reflexivity|]. split; [reflexivity|]. split; [|repeat constructor]. reflexivity.
  - vm_compute. reflexivity.
Qed.
Print Assumptions C56_overlap_refuted.

Lemma occurs_app k l m : occurs k (l ++ m) = (occurs k l + occurs k m)%nat.
Proof. unfold occurs. rewrite filter_app, app_length. reflexivity. Qed.
Lemma occurs_none k l : k ∉ l -> occurs k l = 0%nat.
Proof.
  intros H. destruct (occurs k l) eqn:E; [reflexivity|]. exfalso. apply H, occurs_elem. lia.
Qed.

Lemma occurs_fields t k fs : NoDup fs ->
  (forall f f', f ∈ fs -> f' ∈ fs -> (exists a, a ∈ named_account t f /\ akey a = k) ->
     (exists a, a ∈ named_account t f' /\ akey a = k) -> f = f') ->
  (occurs (KAccount k) (map (fun a => KAccount (akey a)) (concat (map (named_account t) fs))) <= 1)%nat.
Proof.
  intros Nd Hu. induction Nd as [|f fs Hf Nd IH]; [simpl; unfold occurs; simpl; lia|].
  simpl. rewrite map_app, occurs_app.
  assert (Hl : named_account t f = [] \/ exists a, named_account t f = [a]).
  { unfold named_account. destruct (vget t f) as [[]|]; eauto. destruct (principal_parse _); eauto. }
  specialize (IH ltac:(intros; apply Hu; [right|right| |]; assumption)).
  destruct Hl as [->|(a & Ea)]; [exact IH|]. rewrite Ea. simpl. rewrite occurs_cons.
  destruct (decide _) as [Ek|Ek]; [|exact IH]. injection Ek as Ek.
  rewrite (occurs_none _ (map _ _)); [unfold occurs; simpl; lia|].
  intros I. apply elem_of_list_fmap in I. destruct I as (a' & E' & I). injection E' as E'.
  apply elem_of_list_In, in_concat in I. destruct I as (l & Hl & I). apply in_map_iff in Hl. destruct Hl as (f' & <- & Hf').
  apply elem_of_list_In in Hf'. apply elem_of_list_In in I.
  assert (f = f') as <-; [|contradiction]. apply Hu.
  - left.
  - right. exact Hf'.
  - exists a. rewrite Ea. split; [left|exact Ek].
  - exists a'. split; [exact I|congruence].
Qed.

Lemma occurs_keys v k :
  (forall ty f f', has_type v ty -> f ∈ roles ty -> f' ∈ roles ty ->
     match k with KAccount a => names v f a -> names v f' a -> f = f' | _ => True end) ->
  (occurs k (keys_of v) <= 1)%nat.
Proof.
  intros Hu. unfold keys_of. destruct (block_type v) as [b|] eqn:Eb; [|unfold occurs; simpl; lia].
  assert (T : has_type v (btype_text b)) by (apply has_type_block; eauto).
  specialize (Hu (btype_text b)). rewrite roles_fields in Hu.
  unfold entry_keys. rewrite !occurs_app.
  assert (Ht : (occurs k match extract_token_id b v with Some n => [KToken n] | None => [] end <= match k with KToken _ => 1 | _ => 0 end)%nat).
  { destruct (extract_token_id b v); [|unfold occurs; simpl; lia]. rewrite occurs_cons. unfold occurs at 1. simpl.
    destruct (decide _) as [<-|Hn]; [simpl; lia|simpl; lia]. }
  assert (Hty : (occurs k [KType (btype_text b)] <= match k with KType _ => 1 | _ => 0 end)%nat).
  { rewrite occurs_cons. unfold occurs at 1. simpl. destruct (decide _) as [<-|Hn]; [simpl; lia|simpl; lia]. }
  assert (Ha : (occurs k (map (fun a => KAccount (akey a)) (extract_accounts b v)) <= match k with KAccount _ => 1 | _ => 0 end)%nat).
  { destruct k as [a|s|n].
    - unfold extract_accounts. destruct (tx_map v) as [t|] eqn:Et; [|unfold occurs; simpl; lia].
      apply occurs_fields.
      + destruct b; apply (bool_decide_eq_true_1 _); vm_compute; reflexivity.
      + intros f f' Hf Hf' N1 N2. apply (Hu f f' T Hf Hf').
        * apply named_account_spec in N1. destruct N1 as (p & N1). exists (VMap t), p. split; [apply tx_map_field, Et|exact N1].
        * apply named_account_spec in N2. destruct N2 as (p & N2). exists (VMap t), p. split; [apply tx_map_field, Et|exact N2].
    - rewrite occurs_none; [lia|]. intros I. apply elem_of_list_fmap in I. destruct I as (? & ? & _). discriminate.
    - rewrite occurs_none; [lia|]. intros I. apply elem_of_list_fmap in I. destruct I as (? & ? & _). discriminate. }
  destruct k; lia.
Qed.

(** Without overlap, a block is listed once per key, unless it names the account in two fields.  Missing from the full claim:
    overlapping rounds and accounts named twice, see the two refutations. *)
Theorem C56_once_partial L h k : fair L 0 h istart -> no_overlap h istart ->
  match k with
  | KAccount a => forall i ty f f', i < istatus (irun h istart) -> has_type (L i) ty -> f ∈ roles ty -> f' ∈ roles ty ->
      names (L i) f a -> names (L i) f' a -> f = f'
  | _ => True
  end ->
  NoDup (listed (irun h istart) k).
Proof.
  intros F N Hu. destruct (upd_run L h 0 istart (istart_ok L) (istart_upd L 0) F N) as [[A [B1 B2] C D] _].
  unfold listed, istatus in *. rewrite B1.
  assert (S : StronglySorted (fun a b => b < a) (entries L k (x_last (irun h istart)))).
  { apply entries_strict. intros i Hi. apply occurs_keys. intros ty f f' T Hf Hf'. destruct k; auto.
    intros N1 N2. exact (Hu i ty f f' Hi T Hf Hf' N1 N2). }
  clear -S. induction S as [|x l S IH Fa]; constructor; [|exact IH]. intros I. rewrite Forall_forall in Fa. apply Fa in I. lia.
Qed.
Print Assumptions C56_once_partial.

Example C56_example :
  NoDup (listed (irun rounds istart) (KToken 5)) /\ listed (irun rounds istart) (KToken 5) = [1; 0].
Proof.
  split; [|vm_compute; reflexivity]. apply (C56_once_partial chain1); [exact rounds_fair|exact rounds_no_overlap|exact I].
Qed.

(** ** C57 *)

(** A block of an unknown type stops the index for ever. *)
Theorem C57_stuck_refuted : exists L, (forall i, encodable (L i) = true) /\
  (forall h, fair L 0 h istart -> no_overlap h istart -> istatus (irun h istart) = 0) /\
  (exists h, fair L 0 h istart /\ no_overlap h istart /\ last_height 0 h = 5 /\
     h = [(at_ 10 5, IUpdate); (at_ 11 5, IReply 0 (RLedger [] (map (fun i => (i, L i)) (range 0 5))))]).
Proof.
  exists (fun _ => blk "5mint" []). split; [reflexivity|]. split.
  - intros h F N. destruct (upd_run _ h 0 istart (istart_ok _) (istart_upd _ 0) F N) as [[A [B1 B2] C D] _].
    unfold istatus. destruct (N.eq_dec (x_last (irun h istart)) 0) as [E|E]; [exact E|exfalso].
    destruct (B2 0 ltac:(lia)) as [H _]. apply H. reflexivity.
  - exists [(at_ 10 5, IUpdate); (at_ 11 5, IReply 0 (RLedger [] (map (fun i => (i, blk "5mint" [])) (range 0 5))))].
    split; [|split; [|split; reflexivity]].
    + fair_step. fair_step; [|exact I].
      do 3 eexists. split; [reflexivity|]. split; [reflexivity|]. split; [|repeat constructor]. reflexivity.
    + do 2 overlap_step. exact I.
Qed.
Print Assumptions C57_stuck_refuted.

(** The round begun after [h] ends without error, at once or with the last reply of [h2]. *)
Definition round_ends (h : ihistory) (e : ienv) (h2 : ihistory) : Prop :=
  (h2 = [] /\ snd (istep (i_now e) IUpdate (irun h istart)) = INone) \/
  (exists id h2' e' r t, h2 = h2' ++ [(e', IReply id r)] /\
     snd (istep (i_now e) IUpdate (irun h istart)) = IWait id /\
     x_tasks (irun (h ++ (e, IUpdate) :: h2') istart) !! id = Some t /\
     snd (istep (i_now e') (IReply id r) (irun (h ++ (e, IUpdate) :: h2') istart)) = INone).

Lemma finish_progress L H n m got s s' a : H < two64 -> good_blocks L H got -> map fst got ≡ₚ range n (n + m) ->
  (forall i, n <= i < n + m -> understood (L i)) -> n <= H ->
  finish (KUpdate n) got s = Some (s', a) -> x_last s' = n + m.
Proof.
  intros HH Hg P Hu Hn. unfold finish.
  assert (Hm : n + m <= H).
  { destruct (N.eq_dec m 0) as [->|Hm]; [lia|].
    assert (I : n + m - 1 ∈ map fst got) by (rewrite P; apply elem_of_range; lia).
    apply elem_of_list_fmap in I. destruct I as (b & E & Hb). unfold good_blocks in Hg. rewrite Forall_forall in Hg.
    apply Hg in Hb. lia. }
  rewrite (sort_asc_good L H got _ Hg P (sorted_lt_le _ (sorted_range _ _))).
  destruct (add_blocks_all L (N.to_nat (n + m - n)) n (x_index s)) as [ix' E]; [lia|intros; apply enterable_understood, Hu; lia|].
  unfold range. rewrite E. intros E2. injection E2 as <- _. simpl. lia.
Qed.

(** If the blocks of the next hundred are understood, a round that ends without error indexes all of them that existed when
    it began.  Missing from the full claim: blocks that are not understood, see the refutation. *)
Theorem C57_progress_partial L h e h2 : let s := irun h istart in
  fair L 0 (h ++ (e, IUpdate) :: h2) istart -> no_overlap (h ++ (e, IUpdate) :: h2) istart ->
  (forall i, istatus s <= i < istatus s + 100 -> understood (L i)) -> istatus s + 100 < two64 ->
  round_ends h e h2 ->
  N.min (istatus s + 100) (i_height e) <= istatus (irun (h ++ (e, IUpdate) :: h2) istart).
Proof.
  intros s F N Hu H64 R. unfold istatus in *.
  apply fair_app in F. destruct F as [F1 F2]. pose proof (fair_ok L h 0 istart (istart_ok L) F1) as Hs. fold s in Hs.
  assert (Nh : no_overlap h istart /\ no_overlap ((e, IUpdate) :: h2) s).
  { clear -N. revert N. unfold s. generalize istart. induction h as [|[e0 o0] h0 IH]; intros s0 N; [split; [exact I|exact N]|].
    destruct N as [N1 N2]. apply IH in N2. split; [split; [exact N1|apply N2]|apply N2]. }
  destruct Nh as [N1 N2]. destruct (upd_run L h 0 istart (istart_ok L) (istart_upd L 0) F1 N1) as [U _]. fold s in U.
  set (H := last_height 0 h) in *. destruct F2 as (Hl & _ & Hh & F2). destruct N2 as [No N2]. fold s in Hh, F2.
  assert (Hs' : ok_state L (i_height e) s) by (eapply ok_state_mono; [|exact Hs]; lia).
  assert (Hsn : ok_state L (i_height e) (fst (istep (i_now e) IUpdate s))) by (apply (istep_ok L H e _ s); [lia|exact Hs|exact Hh]).
  destruct (upd_step L H e IUpdate s) as [Un Um]; [lia|lia|exact Hs|exact Hh|exact No|exact U|].
  assert (E100 : add64 (x_last s) 100 = x_last s + 100) by (unfold add64; apply N.mod_small; lia).
  pose proof (range64 (x_last s) (x_last s) 100) as Hb. rewrite E100 in Hb.
  assert (Hlast : x_last s <= i_height e) by (pose proof (us_last _ _ _ U); lia).
  (* enough blocks: the received ids are an initial segment and only late blocks are missing *)
  assert (Henough : forall (got : list block) m (cut : list BinNums.N), map fst got ≡ₚ range (x_last s) (x_last s + m) ->
     map fst got ++ cut ≡ₚ range (x_last s) (x_last s + 100) -> Forall (fun i => i_height e <= i) cut ->
     m <= 100 /\ N.min (x_last s + 100) (i_height e) <= x_last s + m).
  { intros got m cut P1 P2 Fc.
    assert (m <= 100).
    { apply Permutation_length in P1. apply Permutation_length in P2. rewrite app_length in P2.
      assert (X : nlen (range (x_last s) (x_last s + m)) <= nlen (range (x_last s) (x_last s + 100))) by (unfold nlen; lia).
      rewrite !nlen_range in X. lia. }
    split; [assumption|]. destruct (N.le_gt_cases (N.min (x_last s + 100) (i_height e)) (x_last s + m)) as [Hc|Hc]; [exact Hc|exfalso].
    assert (I : x_last s + m ∈ range (x_last s) (x_last s + 100)) by (apply elem_of_range; lia).
    rewrite <- P2 in I. apply elem_of_app in I. destruct I as [I|I].
    - rewrite P1 in I. apply elem_of_range in I. lia.
    - rewrite Forall_forall in Fc. apply Fc in I. lia. }
  rewrite irun_app. change (irun ((e, IUpdate) :: h2) (irun h istart)) with (irun h2 (fst (istep (i_now e) IUpdate s))).
  assert (Ei : istep (i_now e) IUpdate s = or_trap s (begin_fetch (KUpdate (x_last s)) (range (x_last s) (x_last s + 100)) s))
    by (simpl; rewrite E100; reflexivity).
  unfold round_ends in R. fold s in R. rewrite Ei in R, Hsn, F2, N2, Un |- *.
  destruct (begin_fetch (KUpdate (x_last s)) (range (x_last s) (x_last s + 100)) s) as [[s' an]|] eqn:E.
  2: { destruct R as [[_ E']|(? & ? & ? & ? & ? & _ & E' & _)]; discriminate. }
  cbn [fst snd or_trap] in *.
  destruct (begin_cases L (i_height e) _ _ s s' an (os_cache _ _ _ Hs') Hb E) as [Hg [(_ & P & Fi)|(Ht & -> & Es)]].
  - destruct R as [[-> _]|(id & ? & ? & ? & ? & _ & E' & _)].
    2: { unfold finish in Fi. destruct (add_blocks _ _ _) as [[]|]; [|discriminate]. injection Fi as _ <-. discriminate. }
    cbn [irun]. rewrite (finish_progress L (i_height e) (x_last s) 100 _ s s' an ltac:(lia) Hg P Hu Hlast Fi). lia.
  - destruct R as [[_ E']|(id & h2' & e' & r & t & -> & E' & Et & An)]; [discriminate|]. injection E' as <-.
    apply fair_app in F2. destruct F2 as [F2 F3]. destruct F3 as (Hl3 & _ & Hh3 & _).
    rewrite irun_app in Et, An.
    change (irun ((e, IUpdate) :: h2') (irun h istart)) with (irun h2' (fst (istep (i_now e) IUpdate s))) in Et, An.
    rewrite Ei in Et, An. cbn [fst or_trap] in Et, An.
    assert (N2' : no_overlap h2' s').
    { clear -N2. revert N2. generalize s'. induction h2' as [|[e0 o0] h0 IH]; intros s0 N; [exact I|].
      destruct N as [N1 N2]. split; [exact N1|]. apply IH, N2. }
    assert (T : tracked L (i_height e) (i_height e) (x_next s) (KUpdate (x_last s)) (range (x_last s) (x_last s + 100)) s').
    { subst s'. split; simpl; [lia|]. rewrite lookup_insert. intros t0 [= <-]. auto. }
    apply (tracked_run L _ _ _ _ h2' _ _ (N.le_refl _) Hsn F2) in T.
    pose proof (fair_ok L h2' _ _ Hsn F2) as Hs2. pose proof (fair_height _ _ _ _ F2) as Hle.
    destruct (upd_run L h2' _ _ Hsn Un F2 N2') as [U2 _].
    rewrite irun_app. set (H2 := last_height (i_height e) h2') in *. set (s2 := irun h2' s') in *.
    cbn [irun]. simpl istep in An |- *. rewrite Et in An |- *.
    specialize (Hh3 _ _ t eq_refl Et). destruct (proj2 T t Et) as (T1 & T2 & T3).
    destruct (us_upd _ _ _ U2 _ _ _ Et T3) as [El2 Hupd].
    apply (task_ok_mono L _ (i_height e')) in T1; [|lia]. apply (ok_state_mono L _ (i_height e')) in Hs2; [|lia].
    apply (upd_ok_mono _ (i_height e')) in Hupd; [|lia].
    destruct (receive (i_now e') (x_next s) t r s2) as [[s3 an]|] eqn:Er; [|discriminate]. cbn [fst snd or_trap] in An |- *. subst an.
    destruct (receive_cases _ _ _ _ _ _ _ _ _ _ Hh3 (os_cache _ _ _ Hs2) T1 Er) as (Hc & ot & got & R & Hot).
    pose proof (reaction_ok L (i_height e') (i_height e) t _ _ _ ltac:(lia) R Hh3 T1) as Hr.
    pose proof (reaction_upd _ _ _ _ _ _ _ _ R Hh3 T1 Hupd) as Hru. destruct ot as [t'|].
    { destruct Hot as (? & _). discriminate. }
    destruct Hr as [Hgot (cut & P & Fc)]. destruct Hru as (m & Pm). destruct Hot as (s1 & (_ & _ & Fi) & _). rewrite T3 in Fi.
    rewrite T2 in P. destruct (Henough _ _ _ Pm P Fc) as [Hm1 Hm2].
    rewrite (finish_progress L (i_height e') (x_last s) m _ _ _ _ ltac:(lia) Hgot Pm ltac:(intros; apply Hu; lia) ltac:(lia) Fi).
    exact Hm2.
Qed.
Print Assumptions C57_progress_partial.

Lemma insert_values_some now l : forall c, Forall (fun b : block => encodable (snd b) = true) l -> exists c', insert_values now l c = Some c'.
Proof.
  induction l as [|[i v] l IH]; intros c F; [eexists; reflexivity|]. inversion F as [|? ? Hv F']; subst. simpl in Hv.
  cbn [insert_values]. rewrite Hv. destruct (i <? two64); apply IH, F'.
Qed.
Lemma add_blocks_some L H l : H <= two64 -> good_blocks L H l -> (forall i, i < H -> understood (L i)) -> forall n ix, exists x, add_blocks l n ix = Some x.
Proof.
  intros HH Hg Hu. induction Hg as [|[i v] l [E Hi] Hg IH]; intros n ix; [eexists; reflexivity|]. simpl in E, Hi. cbn [add_blocks].
  destruct (add_block_ok i v ix) as [ix' ->]; [lia|subst v; apply enterable_understood, Hu, Hi|apply IH].
Qed.
Lemma finish_some L H k got s : H <= two64 -> good_blocks L H got -> (forall i, i < H -> understood (L i)) -> exists x, finish k got s = Some x.
Proof.
  intros HH Hg Hu. destruct k as [n|d]; [|eexists; reflexivity]. unfold finish.
  destruct (add_blocks_some L H (sort_blocks false got) HH ltac:(eapply good_blocks_perm; [|exact Hg]; symmetry; apply sort_asc_spec) Hu n (x_index s))
    as [[n' ix] ->]. eauto.
Qed.
Lemma good_encodable L H l : good_blocks L H l -> (forall i, i < H -> encodable (L i) = true) -> Forall (fun b : block => encodable (snd b) = true) l.
Proof. intros Hg He. eapply Forall_impl; [exact Hg|]. simpl. intros [i v] [-> Hi]. auto. Qed.

(** Amount of work of a call: chunks to request, then archives to ask. *)
Definition work (t : task) : nat * nat := (length (open_chunks t), length (k_arch t)).
Definition less_work (a b : nat * nat) : Prop := (fst a < fst b)%nat \/ (fst a = fst b /\ (snd a < snd b)%nat).

(** Every reply to a waiting call that carries blocks is accepted and leaves less to do, provided the blocks can be stored and
    understood; so a round ends if calls do not fail. *)
Theorem C57_reply_accepted_partial L h e id r t : fair L 0 (h ++ [(e, IReply id r)]) istart ->
  x_tasks (irun h istart) !! id = Some t -> r <> RFail ->
  (forall i, i < i_height e -> understood (L i) /\ encodable (L i) = true) ->
  let x := istep (i_now e) (IReply id r) (irun h istart) in
  snd x <> ITrap /\ forall t', x_tasks (fst x) !! id = Some t' -> less_work (work t') (work t).
Proof.
  intros F Et Hr Hall. apply fair_app in F. destruct F as [F1 F2]. pose proof (fair_ok L h 0 istart (istart_ok L) F1) as Hs.
  set (s := irun h istart) in *. destruct F2 as (Hl & _ & Hh & _). apply (ok_state_mono L _ (i_height e)) in Hs; [|lia].
  specialize (Hh id r t eq_refl Et). destruct (os_tasks _ _ _ Hs id t Et) as [Hi Ht].
  assert (Hu : forall i, i < i_height e -> understood (L i)) by (intros; apply Hall; assumption).
  assert (He : forall i, i < i_height e -> encodable (L i) = true) by (intros; apply Hall; assumption).
  intros x. subst x. simpl istep. rewrite Et.
  assert (Hrec : exists y, receive (i_now e) id t r s = Some y).
  { unfold receive. destruct r as [arch bs|bs|]; [| |congruence].
    - pose proof Hh as Hh2. destruct Hh2 as (st & n & rest & Ea & Ek & P & Fb). rewrite Ea. destruct arch as [|a arch]; [|eauto].
      assert (Hg : good_blocks L (i_height e) bs).
      { unfold good_blocks. rewrite Forall_forall in Fb |- *. intros y Hy. split; [auto|].
        assert (I : fst y ∈ range st (N.min (st + n) (i_height e))).
        { rewrite <- P. apply elem_of_app. right. apply elem_of_list_fmap. eauto. }
        apply elem_of_range in I. lia. }
      destruct (insert_values_some (i_now e) bs (x_cache s) (good_encodable _ _ _ Hg He)) as [c ->].
      unfold next_chunk. destruct (tail (k_chunks t)); [|eauto]. eapply (finish_some L (i_height e)); [lia| |exact Hu].
      apply Forall_app. split; [apply Ht|exact Hg].
    - pose proof Hh as Hh2. destruct Hh2 as (a & rest & Ea & P). rewrite Ea.
      assert (Hg : good_blocks L (i_height e) bs).
      { unfold good_blocks. rewrite P. apply good_blocks_map. pose proof (ok_arch _ _ _ _ Ht) as Fa. rewrite Ea in Fa. simpl in Fa.
        apply Forall_app in Fa. apply Fa. }
      destruct rest as [|a2 rest].
      + assert (Hg2 : good_blocks L (i_height e) (bs ++ k_direct t)) by (apply Forall_app; split; [exact Hg|apply Ht]).
        destruct (insert_values_some (i_now e) _ (x_cache s) (good_encodable _ _ _ Hg2 He)) as [c ->].
        unfold next_chunk. destruct (tail (k_chunks t)); [|eauto]. eapply (finish_some L (i_height e)); [lia| |exact Hu].
        apply Forall_app. split; [apply Ht|exact Hg2].
      + destruct (insert_values_some (i_now e) bs (x_cache s) (good_encodable _ _ _ Hg He)) as [c ->]. eauto. }
  destruct Hrec as [[s' an] Er]. rewrite Er. cbn [or_trap fst snd].
  destruct (receive_cases _ _ _ _ _ _ _ _ _ _ Hh (os_cache _ _ _ Hs) Ht Er) as (Hc & ot & got & R & Hot).
  destruct ot as [t'|].
  - destruct Hot as (-> & E1 & _). split; [discriminate|]. rewrite E1, lookup_insert. intros t2 [= <-].
    unfold less_work, work, open_chunks. inversion R as [|? ? ? ? ? Ea Ek|? ? ? Ea| |? ? ? ? Ea Ek|? ? ? ? Ea]; subst; simpl; rewrite Ea; simpl.
    + rewrite Ek. simpl. left. lia.
    + assert (exists c cs, k_chunks t = c :: cs) as (c & cs & Ek).
      { destruct Hh as (st & n & rest & _ & Ek & _). eauto. }
      rewrite Ek. simpl. left. lia.
    + rewrite Ek. simpl. right. split; [reflexivity|lia].
    + right. split; [reflexivity|lia].
  - destruct Hot as (s1 & (E1 & _ & Fi) & _). split.
    + unfold finish in Fi. destruct (k_kind t); [|injection Fi as _ <-; discriminate].
      destruct (add_blocks _ _ _) as [[]|]; [|discriminate]. injection Fi as _ <-. discriminate.
    + assert (Et3 : x_tasks s' = x_tasks s1).
      { unfold finish in Fi. destruct (k_kind t); [|injection Fi as <- _; reflexivity].
        destruct (add_blocks _ _ _) as [[]|]; [|discriminate]. injection Fi as <- _. reflexivity. }
      rewrite Et3, E1. intros t' E'. rewrite lookup_delete in E'. discriminate.
Qed.
Print Assumptions C57_reply_accepted_partial.

Example C57_example :
  istatus (irun (take 2 rounds) istart) = 2 /\ round_ends (take 2 rounds) (at_ 20 3) (drop 3 rounds) /\
  istatus (irun rounds istart) = 3.
Proof.
  split; [vm_compute; reflexivity|]. split; [|vm_compute; reflexivity]. right.
  eexists 1, [(at_ 21 3, IReply 1 (RLedger [[(2, 1)]] []))], (at_ 22 3), (RArchive [(2, chain1 2)]), _.
  split; [reflexivity|]. split; [vm_compute; reflexivity|]. split; [vm_compute; reflexivity|]. vm_compute. reflexivity.
Qed.

(** ** C58 *)
Definition values (L : chain) (ids : list N) : list block := map (fun i => (i, L i)) ids.
Definition in_order (desc : bool) (ids : list N) : list N := if desc then rev ids else ids.

Lemma filter_page_spec ids a n : a + n < two32 -> filter_page ids a n = Some (firstn (N.to_nat n) (skipn (N.to_nat a) ids)).
Proof.
  intros Hb. unfold filter_page, as_usize, add64.
  rewrite (N.mod_small (a + n) two64) by (unfold two32, two64 in *; lia). rewrite !N.mod_small by lia.
  destruct (N.leb_spec (nlen ids) a) as [Hle|Hgt].
  - rewrite skipn_all2 by (unfold nlen in Hle; lia). rewrite firstn_nil. reflexivity.
  - destruct (N.ltb_spec (N.min (a + n) (nlen ids)) a); [lia|]. f_equal. unfold take_n, skip_n.
    replace (N.min a (nlen ids)) with a by lia.
    destruct (N.le_gt_cases (a + n) (nlen ids)) as [Hc|Hc].
    + replace (N.to_nat _) with (N.to_nat n); [reflexivity|]. unfold nlen in *. rewrite skipn_length. lia.
    + replace (N.to_nat _) with (length (skipn (N.to_nat a) ids)).
      2: { unfold nlen in *. rewrite skipn_length. lia. }
      rewrite firstn_all. symmetry. apply firstn_all2. unfold nlen in *. rewrite skipn_length. lia.
Qed.

Lemma sorted_sub (l : list N) a n : StronglySorted N.le l -> StronglySorted N.le (firstn n (skipn a l)).
Proof.
  intros S.
  assert (S2 : StronglySorted N.le (skipn a l)).
  { clear -S. revert a. induction S as [|x l S IH F]; intros [|a]; simpl; auto; constructor; auto. }
  clear S. revert n. induction S2 as [|x l' S IH F]; intros [|n]; simpl; constructor; auto.
  rewrite Forall_forall in F |- *. intros y Hy. apply F. rewrite <- (firstn_skipn n l'). apply elem_of_app. left. exact Hy.
Qed.

Lemma sort_good L H d l ids : good_blocks L H l -> map fst l ≡ₚ ids -> StronglySorted N.le ids ->
  sort_blocks d l = values L (in_order d ids).
Proof. destruct d; [apply sort_desc_good|apply sort_asc_good]. Qed.

(** All ids listed under every filter, ascending; the query answers their page. *)
Theorem C58_filtered_partial L h e a n f so h2 bs tot : let s := irun h istart in
  fair L 0 (h ++ (e, IGet a n f so) :: h2) istart -> call_answer h e (IGet a n f so) h2 bs tot ->
  f <> [] -> a + n < two32 ->
  exists all, StronglySorted N.le all /\ (forall i, i ∈ all <-> forall k, k ∈ f -> i ∈ listed s k) /\
    ((forall k, k ∈ f -> NoDup (listed s k)) -> NoDup all) /\
    bs = values L (in_order (default false so) (firstn (N.to_nat n) (skipn (N.to_nat a) all))).
Proof.
  intros s F An Hf Hb. destruct (call_answer_spec _ _ _ _ _ _ _ _ _ _ F An) as (ids & got & cut & Eq & -> & Hg & P & Fc).
  fold s in Eq. exists (combined_ids (x_index s) f). split; [apply combined_sorted|]. split; [intros i; apply combined_in, Hf|].
  destruct f as [|k f]; [congruence|]. split.
  { intros Nd. unfold combined_ids. cbn [map]. rewrite merge_sort_Permutation. apply fold_filter_NoDup, Nd. left. }
  cbn [query_ids] in Eq. rewrite filter_page_spec in Eq by exact Hb. injection Eq as <-.
  assert (cut = []) as ->.
  { destruct cut as [|i cut]; [reflexivity|exfalso]. inversion Fc as [|? ? Hi _]; subst.
    assert (I : i ∈ firstn (N.to_nat n) (skipn (N.to_nat a) (combined_ids (x_index s) (k :: f)))).
    { rewrite <- P. apply elem_of_app. right. left. }
    assert (I2 : i ∈ combined_ids (x_index s) (k :: f)).
    { rewrite <- (firstn_skipn (N.to_nat a)). apply elem_of_app. right. rewrite <- (firstn_skipn (N.to_nat n)).
      apply elem_of_app. left. exact I. }
    rewrite combined_in in I2 by discriminate. specialize (I2 k ltac:(left)).
    apply fair_app in F. destruct F as [F1 (Hl & _)]. pose proof (fair_ok L h 0 istart (istart_ok L) F1) as O.
    apply (os_index _ _ _ O) in I2. lia. }
  rewrite app_nil_r in P. eapply sort_good; [exact Hg|exact P|]. apply sorted_sub, combined_sorted.
Qed.
Print Assumptions C58_filtered_partial.

(** Missing: pages that end at 2^32 or later. *)
Theorem C58_length_refuted : exists L h, fair L 0 h istart /\
  listed (irun h istart) (KToken 5) = [1; 0] /\
  snd (istep 30 (IGet 0 4294967296 [KToken 5] None) (irun h istart)) = IBlocks [] 3 /\
  snd (istep 30 (IGet 1 4294967295 [KToken 5] None) (irun h istart)) = ITrap.
Proof. exists chain1, rounds. split; [exact rounds_fair|]. splits; vm_compute; reflexivity. Qed.
Print Assumptions C58_length_refuted.

Example C58_example :
  call_answer rounds (at_ 30 3) (IGet 1 5 [KToken 5; KAccount (p1, default_sub)] None) [] [(1, chain1 1)] 3 /\
  call_answer rounds (at_ 30 3) (IGet 0 5 [KAccount (p1, default_sub)] (Some true)) [] (values chain1 [2; 1; 0]) 3.
Proof. split; left; (split; [reflexivity|vm_compute; reflexivity]). Qed.

(** ** C59 *)
Lemma pages_concat {A} (l : list A) n m : (length l <= m * n)%nat ->
  concat (map (fun j => firstn n (skipn (j * n) l)) (seq 0 m)) = l.
Proof.
  assert (G : forall m k (l : list A), (length l <= m * n)%nat ->
    concat (map (fun j => firstn n (skipn ((j - k) * n) l)) (seq k m)) = l).
  { clear. induction m as [|m IH]; intros k l Hl.
    - destruct l; [reflexivity|simpl in Hl; lia].
    - cbn [seq map concat]. rewrite Nat.sub_diag. simpl (0 * n)%nat. simpl skipn.
      transitivity (firstn n l ++ skipn n l); [|apply firstn_skipn]. f_equal.
      rewrite <- (IH (S k) (skipn n l)) by (rewrite skipn_length; simpl in Hl; lia). f_equal. apply map_ext_in.
      intros j Hj. apply in_seq in Hj. rewrite drop_drop. do 2 f_equal.
      replace (j - k)%nat with (S (j - S k)) by lia. simpl. lia. }
  intros Hl. etransitivity; [|apply (G m 0%nat l Hl)]. f_equal. apply map_ext. intros j. rewrite Nat.sub_0_r. reflexivity.
Qed.

(** The pages 0, n, 2n, ... asked for while the listed ids are those of [s], at any times and with any cache. *)
Theorem C59_pages_partial L s n f (answers : list (list block)) :
  f <> [] -> 1 <= n -> n * nlen answers < two32 ->
  (forall j bs, answers !! j = Some bs -> exists h e so h2 tot,
     fair L 0 (h ++ (e, IGet (N.of_nat j * n) n f so) :: h2) istart /\ so <> Some true /\
     call_answer h e (IGet (N.of_nat j * n) n f so) h2 bs tot /\
     forall k, k ∈ f -> listed (irun h istart) k = listed s k) ->
  (forall k, k ∈ f -> NoDup (listed s k)) ->
  (exists k, k ∈ f /\ nlen (listed s k) <= n * nlen answers) ->
  exists all, StronglySorted N.lt all /\ (forall i, i ∈ all <-> forall k, k ∈ f -> i ∈ listed s k) /\
    concat answers = values L all.
Proof.
  intros Hf Hn Hb Ha Nd (k0 & Hk0 & Hlen). exists (combined_ids (x_index s) f).
  assert (Hnd : NoDup (combined_ids (x_index s) f)).
  { destruct f as [|k f]; [congruence|]. unfold combined_ids. cbn [map]. rewrite merge_sort_Permutation. apply fold_filter_NoDup, Nd. left. }
  assert (Hs : StronglySorted N.le (combined_ids (x_index s) f)) by apply combined_sorted.
  split; [|split].
  - revert Hs Hnd. generalize (combined_ids (x_index s) f). clear. induction 1 as [|x l S IH F]; intros Nd; constructor.
    + apply IH. inversion Nd; assumption.
    + inversion Nd as [|? ? Hx _]; subst. rewrite Forall_forall in F |- *. intros y Hy. specialize (F y Hy).
      assert (x <> y) by (intros ->; contradiction). lia.
  - intros i. apply combined_in, Hf.
  - assert (Hpage : forall j bs, answers !! j = Some bs ->
              bs = values L (firstn (N.to_nat n) (skipn (j * N.to_nat n) (combined_ids (x_index s) f)))).
    { intros j bs Hj. destruct (Ha j bs Hj) as (h & e & so & h2 & tot & F & Hso & An & Hl).
      assert (Hjlt : (j < length answers)%nat) by (eapply lookup_lt_Some; eauto).
      destruct (call_answer_spec _ _ _ _ _ _ _ _ _ _ F An) as (ids & got & cut & Eq & -> & Hg & P & Fc).
      assert (Hc : combined_ids (x_index (irun h istart)) f = combined_ids (x_index s) f).
      { unfold combined_ids. replace (map (fun k => default [] (x_index (irun h istart) !! k)) f) with (map (fun k => default [] (x_index s !! k)) f);
          [reflexivity|]. apply map_ext_in. intros k Hk. symmetry. apply Hl, elem_of_list_In, Hk. }
      assert (Hbj : N.of_nat j * n + n < two32).
      { unfold nlen in Hb. assert (X : (N.of_nat j + 1) * n <= n * N.of_nat (length answers)) by nia. lia. }
      destruct f as [|k f]; [congruence|]. cbn [query_ids] in Eq. rewrite filter_page_spec, Hc in Eq by exact Hbj. injection Eq as <-.
      replace (N.to_nat (N.of_nat j * n)) with (j * N.to_nat n)%nat in P by lia.
      assert (cut = []) as ->.
      { destruct cut as [|i cut]; [reflexivity|exfalso]. inversion Fc as [|? ? Hi _]; subst.
        assert (I : i ∈ firstn (N.to_nat n) (skipn (j * N.to_nat n) (combined_ids (x_index s) (k :: f)))).
        { rewrite <- P. apply elem_of_app. right. left. }
        assert (I2 : i ∈ combined_ids (x_index s) (k :: f)).
        { rewrite <- (firstn_skipn (j * N.to_nat n)). apply elem_of_app. right. rewrite <- (firstn_skipn (N.to_nat n)).
          apply elem_of_app. left. exact I. }
        rewrite combined_in in I2 by discriminate. specialize (I2 k ltac:(left)).
        change (default [] (x_index s !! k)) with (listed s k) in I2. rewrite <- Hl in I2 by left.
        apply fair_app in F. destruct F as [F1 (Hle & _)]. pose proof (fair_ok L h 0 istart (istart_ok L) F1) as O.
        apply (os_index _ _ _ O) in I2. lia. }
      rewrite app_nil_r in P. rewrite (sort_good _ _ _ _ _ Hg P) by apply sorted_sub, combined_sorted.
      destruct so as [[]|]; [congruence|reflexivity|reflexivity]. }
    assert (Hlen2 : (length (combined_ids (x_index s) f) <= length answers * N.to_nat n)%nat).
    { assert (Hsub : combined_ids (x_index s) f ⊆ listed s k0).
      { intros i Hi. rewrite combined_in in Hi by exact Hf. apply Hi, Hk0. }
      assert (length (combined_ids (x_index s) f) <= length (listed s k0))%nat.
      { apply NoDup_incl_length; [apply NoDup_ListNoDup, Hnd|]. intros i Hi. apply elem_of_list_In, Hsub, elem_of_list_In, Hi. }
      unfold nlen in Hlen. nia. }
    rewrite <- (pages_concat (combined_ids (x_index s) f) (N.to_nat n) (length answers)) by exact Hlen2.
    unfold values. rewrite concat_map, map_map. f_equal. apply list_eq. intros j. rewrite list_lookup_fmap.
    destruct (answers !! j) as [bs|] eqn:Ej.
    + pose proof (lookup_lt_Some _ _ _ Ej) as Hlt. rewrite (Hpage j bs Ej).
      rewrite lookup_seq_lt by exact Hlt. reflexivity.
    + apply lookup_ge_None in Ej. rewrite lookup_seq_ge by exact Ej. reflexivity.
Qed.
Print Assumptions C59_pages_partial.

(** Missing: blocks that name an account twice, which one page gives twice. *)
Theorem C59_twice_refuted : exists L h, fair L 0 h istart /\ no_overlap h istart /\
  snd (istep 30 (IGet 0 5 [KAccount (p2, default_sub)] None) (irun h istart)) = IBlocks (values L [0; 0]) 1.
Proof.
  exists (fun i => chain1 (i + 3)), [(at_ 10 1, IUpdate); (at_ 11 1, IReply 0 (RLedger [] [(0, chain1 3)]))].
  split; [|split].
  - fair_step. fair_step; [|exact I].
    do 3 eexists. split; [reflexivity|]. split; [reflexivity|]. split; [|repeat constructor]. reflexivity.
  - do 2 overlap_step. exact I.
  - vm_compute. reflexivity.
Qed.
Print Assumptions C59_twice_refuted.

Example C59_example :
  let k := [KAccount (p1, default_sub)] in
  call_answer rounds (at_ 30 3) (IGet 0 2 k None) [] (values chain1 [0; 1]) 3 /\
  call_answer rounds (at_ 30 3) (IGet 2 2 k None) [] (values chain1 [2]) 3 /\
  nlen (listed (irun rounds istart) (KAccount (p1, default_sub))) <= 2 * 2.
Proof. splits; [left; split; [reflexivity|vm_compute; reflexivity]..|vm_compute; discriminate]. Qed.

(** ** C60 *)
Theorem C60_ascending L h e a n so h2 bs tot :
  fair L 0 (h ++ (e, IGet a n [] so) :: h2) istart -> call_answer h e (IGet a n [] so) h2 bs tot ->
  so <> Some true -> a + n <= i_height e -> bs = values L (range a (a + n)).
Proof.
  intros F An Hso Hb. destruct (call_answer_spec _ _ _ _ _ _ _ _ _ _ F An) as (ids & got & cut & Eq & -> & Hg & P & Fc).
  apply fair_app in F. destruct F as [_ (Hh & _)].
  assert (Ed : default false so = false) by (destruct so as [[]|]; [congruence|reflexivity|reflexivity]).
  cbn [query_ids] in Eq. rewrite Ed in *. injection Eq as <-. unfold add64 in P. rewrite N.mod_small in P by lia.
  assert (cut = []) as ->.
  { destruct cut as [|i cut]; [reflexivity|exfalso]. inversion Fc as [|? ? Hi _]; subst.
    assert (I : i ∈ range a (a + n)) by (rewrite <- P; apply elem_of_app; right; left). apply elem_of_range in I. lia. }
  rewrite app_nil_r in P. apply (sort_good _ _ false _ _ Hg P), sorted_lt_le, sorted_range.
Qed.
Print Assumptions C60_ascending.

(** A range that ends above the ledger's height is cut there (blocks added while the call waits may be included). *)
Theorem C60_ascending_above L h e a n so h2 bs tot :
  fair L 0 (h ++ (e, IGet a n [] so) :: h2) istart -> call_answer h e (IGet a n [] so) h2 bs tot ->
  so <> Some true -> a + n < two64 ->
  exists ids, bs = values L ids /\ StronglySorted N.lt ids /\ (forall i, i ∈ ids -> a <= i < a + n) /\
    (forall i, a <= i < a + n -> i < i_height e -> i ∈ ids).
Proof.
  intros F An Hso Hb. destruct (call_answer_spec _ _ _ _ _ _ _ _ _ _ F An) as (ids & got & cut & Eq & -> & Hg & P & Fc).
  assert (Ed : default false so = false) by (destruct so as [[]|]; [congruence|reflexivity|reflexivity]).
  cbn [query_ids] in Eq. rewrite Ed in *. injection Eq as <-. unfold add64 in P. rewrite N.mod_small in P by lia.
  exists (merge_sort N.le (map fst got)). splits.
  - apply (sort_good _ _ false _ _ Hg); [symmetry; apply merge_sort_Permutation|apply merge_sort_sorted].
  - assert (Nd : NoDup (merge_sort N.le (map fst got))).
    { rewrite merge_sort_Permutation. assert (Nd : NoDup (map fst got ++ cut)) by (rewrite P; apply NoDup_range).
      apply NoDup_app in Nd. apply Nd. }
    pose proof (merge_sort_sorted (map fst got)) as S. revert S Nd. generalize (merge_sort N.le (map fst got)). clear.
    induction 1 as [|x l S IH F]; intros Nd; constructor.
    + apply IH. inversion Nd; assumption.
    + inversion Nd as [|? ? Hx _]; subst. rewrite Forall_forall in F |- *. intros y Hy. specialize (F y Hy).
      assert (x <> y) by (intros ->; contradiction). lia.
  - intros i I. rewrite merge_sort_Permutation in I. apply elem_of_range. rewrite <- P. apply elem_of_app. left. exact I.
  - intros i Hi Hh. rewrite merge_sort_Permutation. apply elem_of_range in Hi. rewrite <- P in Hi. apply elem_of_app in Hi.
    destruct Hi as [I|I]; [exact I|]. rewrite Forall_forall in Fc. apply Fc in I. lia.
Qed.
Print Assumptions C60_ascending_above.

(** Descending queries ignore the start and answer the newest indexed blocks. *)
Theorem C60_descending_partial L h e a n h2 bs tot : let s := irun h istart in
  fair L 0 (h ++ (e, IGet a n [] (Some true)) :: h2) istart -> no_overlap h istart ->
  call_answer h e (IGet a n [] (Some true)) h2 bs tot ->
  n <= istatus s -> bs = values L (rev (range (istatus s - n) (istatus s))).
Proof.
  intros s F No An Hb. destruct (call_answer_spec _ _ _ _ _ _ _ _ _ _ F An) as (ids & got & cut & Eq & -> & Hg & P & Fc).
  fold s in Eq. unfold istatus in *. apply fair_app in F. destruct F as [F1 (Hh & _)].
  destruct (upd_run L h 0 istart (istart_ok L) (istart_upd L 0) F1 No) as [U _]. fold s in U. pose proof (us_last _ _ _ U) as Hl.
  cbn [query_ids] in Eq. simpl in Eq. injection Eq as <-. unfold add64 in P. rewrite N.mod_small in P by lia.
  replace (x_last s - n + n) with (x_last s) in P by lia.
  assert (cut = []) as ->.
  { destruct cut as [|i cut]; [reflexivity|exfalso]. inversion Fc as [|? ? Hi _]; subst.
    assert (I : i ∈ range (x_last s - n) (x_last s)) by (rewrite <- P; apply elem_of_app; right; left). apply elem_of_range in I. lia. }
  rewrite app_nil_r in P. apply (sort_good _ _ true _ _ Hg P), sorted_lt_le, sorted_range.
Qed.
Print Assumptions C60_descending_partial.

Theorem C60_descending_refuted : exists L h, fair L 0 h istart /\ no_overlap h istart /\
  snd (istep 30 (IGet 0 1 [] (Some true)) (irun h istart)) = IBlocks (values L [2]) 3.
Proof.
  exists chain1, rounds. split; [exact rounds_fair|]. split; [exact rounds_no_overlap|]. vm_compute. reflexivity.
Qed.
Print Assumptions C60_descending_refuted.

Example C60_example :
  call_answer rounds (at_ 30 5) (IGet 1 3 [] None) [(at_ 31 6, IReply 2 (RLedger [] [(3, chain1 3)]))] (values chain1 [1; 2; 3]) 3 /\
  call_answer rounds (at_ 30 5) (IGet 7 2 [] (Some true)) [] (values chain1 [2; 1]) 3.
Proof.
  split.
  - right. exists 2, [], (at_ 31 6), (RLedger [] [(3, chain1 3)]).
    splits; [reflexivity|vm_compute; reflexivity|vm_compute; reflexivity].
  - left. split; [reflexivity|vm_compute; reflexivity].
Qed.

(** ** C61 *)

(** Every answered block is the ledger's, whatever the cache holds. *)
Theorem C61_true_blocks L h e a n f so h2 bs tot b :
  fair L 0 (h ++ (e, IGet a n f so) :: h2) istart -> call_answer h e (IGet a n f so) h2 bs tot ->
  b ∈ bs -> snd b = L (fst b) /\ fst b < last_height (i_height e) h2.
Proof.
  intros F An I. destruct (call_answer_spec _ _ _ _ _ _ _ _ _ _ F An) as (ids & got & cut & Eq & -> & Hg & P & Fc).
  assert (I2 : b ∈ got) by (destruct (default false so); [rewrite (proj1 (sort_desc_spec got)) in I|rewrite (proj1 (sort_asc_spec got)) in I]; exact I).
  unfold good_blocks in Hg. rewrite Forall_forall in Hg. apply Hg, I2.
Qed.
Print Assumptions C61_true_blocks.

(** Two calls that see the same index and height, but different caches, get the same answer (for blocks that exist). *)
Theorem C61_same_answer L h e h' e' a n f so h2 h2' bs bs' tot tot' :
  fair L 0 (h ++ (e, IGet a n f so) :: h2) istart -> call_answer h e (IGet a n f so) h2 bs tot ->
  fair L 0 (h' ++ (e', IGet a n f so) :: h2') istart -> call_answer h' e' (IGet a n f so) h2' bs' tot' ->
  x_last (irun h istart) = x_last (irun h' istart) ->
  (forall k, k ∈ f -> listed (irun h istart) k = listed (irun h' istart) k) ->
  (f = [] -> N.max a (x_last (irun h istart)) + n <= i_height e /\ N.max a (x_last (irun h istart)) + n <= i_height e') ->
  bs = bs'.
Proof.
  assert (G : forall h e h2 bs tot ids, fair L 0 (h ++ (e, IGet a n f so) :: h2) istart ->
    call_answer h e (IGet a n f so) h2 bs tot -> query_ids a n f so (irun h istart) = Some ids ->
    (f = [] -> N.max a (x_last (irun h istart)) + n <= i_height e) ->
    bs = values L (in_order (default false so) (merge_sort N.le ids))).
  { clear. intros h e h2 bs tot ids F An Eq He. destruct (call_answer_spec _ _ _ _ _ _ _ _ _ _ F An) as (ids' & got & cut & Eq' & -> & Hg & P & Fc).
    rewrite Eq in Eq'. injection Eq' as <-.
    assert (cut = []) as ->.
    { destruct cut as [|i cut]; [reflexivity|exfalso]. inversion Fc as [|? ? Hi _]; subst.
      assert (I : i ∈ ids) by (rewrite <- P; apply elem_of_app; right; left).
      apply fair_app in F. destruct F as [F1 (Hle & _)]. destruct f as [|k f].
      - specialize (He eq_refl). injection Eq as <-. apply elem_of_range in I. destruct (default false so); unfold add64 in I.
        + rewrite N.mod_small in I by lia. lia.
        + rewrite N.mod_small in I by lia. lia.
      - pose proof (filter_page_in _ _ _ _ _ Eq I) as I2. rewrite combined_in in I2 by discriminate. specialize (I2 k ltac:(left)).
        pose proof (fair_ok L h 0 istart (istart_ok L) F1) as O. apply (os_index _ _ _ O) in I2. lia. }
    rewrite app_nil_r in P. eapply sort_good; [exact Hg| |apply merge_sort_sorted]. rewrite merge_sort_Permutation. exact P. }
  intros F1 A1 F2 A2 El Ei Hh.
  assert (Eq : query_ids a n f so (irun h istart) = query_ids a n f so (irun h' istart)).
  { destruct f as [|k f]; simpl; [rewrite El; reflexivity|]. unfold combined_ids.
    replace (map (fun k => default [] (x_index (irun h istart) !! k)) (k :: f)) with (map (fun k => default [] (x_index (irun h' istart) !! k)) (k :: f));
      [reflexivity|]. apply map_ext_in. intros k' Hk. symmetry. apply Ei, elem_of_list_In, Hk. }
  destruct (query_ids a n f so (irun h istart)) as [ids|] eqn:Eq1.
  - rewrite (G _ _ _ _ _ ids F1 A1 Eq1 ltac:(intros; apply Hh; assumption)).
    rewrite (G _ _ _ _ _ ids F2 A2 (eq_sym Eq) ltac:(rewrite <- El; intros; apply Hh; assumption)). reflexivity.
  - destruct (call_answer_spec _ _ _ _ _ _ _ _ _ _ F1 A1) as (ids & _ & _ & E & _). congruence.
Qed.
Print Assumptions C61_same_answer.

(** The second call is answered from the cache alone. *)
Example C61_example :
  let h1 := [(at_ 5 4, IGet 1 2 [] None); (at_ 6 4, IReply 0 (RLedger [] (values chain1 [2; 1])))] in
  call_answer [] (at_ 5 4) (IGet 1 2 [] None) [(at_ 6 4, IReply 0 (RLedger [] (values chain1 [2; 1])))] (values chain1 [1; 2]) 0 /\
  call_answer h1 (at_ 7 4) (IGet 1 2 [] None) [] (values chain1 [1; 2]) 0.
Proof.
  split.
  - right. exists 0, [], (at_ 6 4), (RLedger [] (values chain1 [2; 1])).
    splits; [reflexivity|vm_compute; reflexivity|vm_compute; reflexivity].
  - left. split; [reflexivity|vm_compute; reflexivity].
Qed.

(** ** C62 *)
Theorem C62_grouping l : StronglySorted N.lt l -> Forall (fun i => i < two64) l ->
  concat (group_consecutive l) = l /\
  Forall (fun c => c <> [] /\ (forall j x, c !! j = Some x -> x = hd 0 c + N.of_nat j)) (group_consecutive l) /\
  Forall (fun c => hd 0 c + nlen c ∉ l) (group_consecutive l).
Proof.
  intros S B. destruct (group_spec l (sorted_lt_le _ S) B) as [G1 G2]. split; [exact G1|]. split.
  - eapply Forall_impl; [exact G2|]. intros c [Hn Hc]. split; [exact Hn|]. clear -Hc.
    assert (G : forall n a j x, count_up a n !! j = Some x -> x = a + N.of_nat j).
    { clear. induction n as [|n IH]; intros a j x E; [discriminate|]. destruct j as [|j]; simpl in E.
      - injection E as <-. lia.
      - apply IH in E. lia. }
    intros j x E. rewrite Hc in E. unfold range in E. apply G in E. exact E.
  - exact (group_maximal l S B).
Qed.
Print Assumptions C62_grouping.

Example C62_example : group_consecutive [3; 4; 5; 9; 11; 12] = [[3; 4; 5]; [9]; [11; 12]].
Proof. reflexivity. Qed.

(** ** C63 *)
Lemma istate_eta s : set_cache (x_cache s) s = s.
Proof. destruct s; reflexivity. Qed.

(** The clean-up never removes anything. *)
Theorem C63_cleanup_removes_nothing now s : fst (istep now ICleanup s) = s.
Proof.
  simpl. unfold remove_all_values_older_than. destruct (existsb _ _); simpl; [reflexivity|]. apply istate_eta.
Qed.
Print Assumptions C63_cleanup_removes_nothing.

Theorem C63_cleanup_refuted : exists L h, fair L 0 h istart /\
  let x := istep 100 ICleanup (irun h istart) in
  snd x = ITrap /\ exists v, x_cache (fst x) !! 0 = Some (11, v).
Proof.
  exists chain1, rounds. split; [exact rounds_fair|]. split; [vm_compute; reflexivity|]. eexists. vm_compute. reflexivity.
Qed.
Print Assumptions C63_cleanup_refuted.

(** If the job does not trap, the claim holds (because nothing was old).  Missing: the case with old entries. *)
Theorem C63_cleanup_partial now s i ts v : snd (istep now ICleanup s) <> ITrap ->
  x_cache (fst (istep now ICleanup s)) !! i = Some (ts, v) -> now <= ts.
Proof.
  rewrite C63_cleanup_removes_nothing. simpl. unfold remove_all_values_older_than. destruct (existsb _ _) eqn:E; [intros X; exfalso; apply X; reflexivity|].
  intros _ Hi. destruct (N.le_gt_cases now ts) as [H|H]; [exact H|exfalso].
  assert (X : existsb (fun e : N * (N * value) => fst (snd e) <? now) (map_to_list (x_cache s)) = true).
  { apply existsb_exists. exists (i, (ts, v)). split; [apply elem_of_list_In, elem_of_map_to_list, Hi|]. apply N.ltb_lt, H. }
  congruence.
Qed.
Print Assumptions C63_cleanup_partial.

Example C63_example : snd (istep 11 ICleanup (irun rounds istart)) = INone /\ x_cache (irun rounds istart) !! 1 = Some (11, chain1 1).
Proof. split; vm_compute; reflexivity. Qed.

(** ** C64 *)
Theorem C64_names_round_trip b : btype_parse (btype_text b) = Some b.
Proof. destruct b; vm_compute; reflexivity. Qed.
Print Assumptions C64_names_round_trip.
Lemma lowercase_idem s : lowercase (lowercase s) = lowercase s.
Proof.
  induction s as [|c s IH]; [reflexivity|]. simpl. rewrite IH. f_equal. unfold lower_ascii.
  destruct c as [[] [] [] [] [] [] [] []]; vm_compute; reflexivity.
Qed.
Theorem C64_case_insensitive s s' : lowercase s = lowercase s' -> btype_parse s = btype_parse s'.
Proof. unfold btype_parse. intros ->. reflexivity. Qed.
Print Assumptions C64_case_insensitive.
Theorem C64_parse_exact s b : btype_parse s = Some b <-> lowercase s = btype_text b.
Proof. apply btype_parse_text. Qed.
Print Assumptions C64_parse_exact.
Theorem C64_names_differ b b' : btype_text b = btype_text b' -> b = b'.
Proof. apply btype_text_inj. Qed.
Print Assumptions C64_names_differ.
Example C64_example : btype_parse "37Approve_COLL" = Some BCollApprove /\ btype_parse "37approve_col" = None.
Proof. split; vm_compute; reflexivity. Qed.
