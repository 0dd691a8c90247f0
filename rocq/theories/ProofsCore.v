(** Token ids, supply, ownership. *)
From Verif Require Import Base ModelPrincipal ModelState ModelIcrc7 ModelIcrc37 ModelManagement ModelLifecycle
  ModelQueries ModelStep ProofsItems ProofsManage ProofsMicro Spec.

Ltac open_quiet :=
  repeat match goal with
  | Q : quiet _ _ |- _ => let w := fresh "w" in let n := fresh "n" in destruct Q as (w & n & ->)
  end.

(** Case analysis on an elementary change; closes the goals solved by computation. *)
Ltac micro_cases H :=
  destruct H; open_quiet;
  try match goal with
  | |- context [continue _ ?p ?r _] => destruct p, r
  end; simpl.

Definition is_mint (o : op) : Prop := match o with OMint _ => True | _ => False end.
Definition is_burn (o : op) : Prop := match o with OBurn _ => True | _ => False end.

Global Instance is_mint_dec o : Decision (is_mint o).
Proof. destruct o; simpl; apply _. Defined.
Global Instance is_burn_dec o : Decision (is_burn o).
Proof. destruct o; simpl; apply _. Defined.

(** Token ids: the key of a token is its id, ids are below the next id to hand out. *)
Record wf (s : state) : Prop := {
  wf_id : forall i t, tokens s !! i = Some t -> t_id t = i;
  wf_lt : forall i t, tokens s !! i = Some t -> 1 <= i < last_id s;
  wf_pos : 1 <= last_id s
}.

Lemma init_inv caller url_ok a s :
  init caller url_ok a = Some s ->
  (forall l, i_logo a = Some l -> url_ok l = true) /\
  (forall w, i_tx_window a = Some w -> w < two64) /\
  i_max_revoke a <> Some 0 /\ i_max_appr a <> Some 0 /\
  s = mkSt (init_cfg a) (if i_test_mode a then test_mode_grants caller (i_permissions a) else i_permissions a)
           ∅ ∅ 1 ∅ [] ∅ ∅ ∅ ∅ ∅ ∅ [] 0 ∅ 0.
Proof.
  unfold init. intros H.
  match type of H with (if ?b then _ else _) = _ => destruct b eqn:L; [discriminate|] end.
  match type of H with match ?b with _ => _ end = _ => destruct b eqn:W; [|discriminate] end.
  destruct (bool_decide (i_max_revoke a = Some 0)) eqn:R; [discriminate|].
  destruct (bool_decide (i_max_appr a = Some 0)) eqn:A; [discriminate|].
  apply bool_decide_eq_false in R, A. injection H as <-.
  split; [|split; [|auto]].
  - intros l E. rewrite E in L. destruct (url_ok l); [reflexivity|discriminate].
  - intros w E. rewrite E in W. unfold u64_try in W. destruct (w <? two64) eqn:X; [|discriminate].
    apply N.ltb_lt. exact X.
Qed.

Lemma init_wf caller url_ok a s : init caller url_ok a = Some s -> wf s.
Proof.
  intros Hi. apply init_inv in Hi. destruct Hi as (_ & _ & _ & _ & ->). split; simpl; [| |lia]; intros i t; rewrite lookup_empty; discriminate.
Qed.

Lemma tokens_move nft to s : tokens (move_token nft to s) = <[t_id nft := mkTok (t_id nft) to]> (tokens s).
Proof. reflexivity. Qed.
Lemma by_owner_move nft to s :
  by_owner (move_token nft to s) =
    (let b1 := <[akey to := default [] (by_owner s !! akey to) ++ [t_id nft]]> (by_owner s) in
     <[akey (t_owner nft) := filter (fun i => i <> t_id nft) (default [] (b1 !! akey (t_owner nft)))]> b1).
Proof. reflexivity. Qed.

Lemma wf_move s s' nft to :
  wf s -> tokens s !! t_id nft = Some nft -> last_id s' = last_id s ->
  tokens s' = <[t_id nft := mkTok (t_id nft) to]> (tokens s) -> wf s'.
Proof.
  intros [W1 W2 W3] T L E. split; rewrite ?L, ?E; auto.
  - intros i t. destruct (decide (t_id nft = i)) as [<-|Hne].
    + rewrite lookup_insert. intros [= <-]. reflexivity.
    + rewrite lookup_insert_ne by exact Hne. apply W1.
  - intros i t. destruct (decide (t_id nft = i)) as [<-|Hne].
    + intros _. eapply W2; eauto.
    + rewrite lookup_insert_ne by exact Hne. apply W2.
Qed.

Lemma wf_same s s' : wf s -> last_id s' = last_id s -> tokens s' = tokens s -> wf s'.
Proof. intros [W1 W2 W3] L E. split; rewrite ?L, ?E; auto. Qed.

Lemma wf_micro e o s s' : wf s -> micro e o s s' -> wf s'.
Proof.
  intros W H. pose proof W as [W1 W2 W3].
  micro_cases H; try (eapply wf_same; [exact W|reflexivity|reflexivity]; fail).
  - pose proof (W1 _ _ H1) as Hid. rewrite <- Hid in H1.
    eapply wf_move; [exact W|exact H1|reflexivity|reflexivity].
  - pose proof (W1 _ _ H1) as Hid. rewrite <- Hid in H1.
    eapply wf_move; [exact W|exact H1|reflexivity|reflexivity].
  - split; simpl; [| |lia].
    + intros i t. rewrite mint_tokens_lookup. destruct (decide _) as [D|D]; [|apply W1].
      destruct (l !! _); simpl; intros [= <-]; reflexivity.
    + intros i t. rewrite mint_tokens_lookup. destruct (decide _) as [D|D]; [lia|].
      intros Ht. specialize (W2 _ _ Ht). lia.
  - split; simpl; [| |lia].
    + intros j t Ht. apply lookup_delete_Some in Ht. eapply W1; apply Ht.
    + intros j t Ht. apply lookup_delete_Some in Ht. eapply W2; apply Ht.
Qed.

Lemma step_wf e o s : wf s -> wf (fst (step e o s)).
Proof. apply step_inv. intros. eapply wf_micro; eauto. Qed.

Lemma run_wf h s : wf s -> wf (run h s).
Proof. apply run_inv. intros. eapply wf_micro; eauto. Qed.

Lemma reachable_wf s : reachable s -> wf s.
Proof. intros (c & u & a & s0 & h & Hi & ->). apply run_wf. eapply init_wf; eauto. Qed.

(** Messages that are not mints keep the next id. *)
Lemma micro_last_id e o s s' : micro e o s s' -> ~ is_mint o -> last_id s' = last_id s.
Proof. intros H Hn. micro_cases H; try reflexivity. destruct (Hn I). Qed.

Lemma step_last_id e o s : ~ is_mint o -> last_id (fst (step e o s)) = last_id s.
Proof.
  intros Hn. apply (step_rel (fun _ => True) (fun a b => last_id b = last_id a)); auto.
  - intros; congruence.
  - intros ? ? _ H. split; [exact I|]. eapply micro_last_id; eauto.
Qed.

(** Messages that are neither mints nor burns keep the set of ids. *)
Lemma micro_dom e o s s' : wf s -> micro e o s s' -> ~ is_mint o -> ~ is_burn o -> dom (tokens s') = dom (tokens s).
Proof.
  intros [W1 W2 W3] H Hn Hb. micro_cases H; try reflexivity.
  - rewrite dom_insert_lookup_L; [reflexivity|]. rewrite (W1 _ _ H1). eauto.
  - rewrite dom_insert_lookup_L; [reflexivity|]. rewrite (W1 _ _ H1). eauto.
  - destruct (Hn I).
  - destruct (Hb I).
Qed.

Lemma step_dom e o s : wf s -> ~ is_mint o -> ~ is_burn o -> dom (tokens (fst (step e o s))) = dom (tokens s).
Proof.
  intros W Hn Hb. apply (step_rel wf (fun a b => dom (tokens b) = dom (tokens a))); auto.
  - intros; congruence.
  - intros ? ? Hw H. split; [eapply wf_micro; eauto|]. eapply micro_dom; eauto.
Qed.

(** ** Mints and burns, as events *)
Lemma step_mint e l s s' k :
  step e (OMint l) s = (s', ANat k) ->
  k = last_id s /\ guards s = ∅ /\ has_permission s (e_caller e) PMinting = true /\
  check_memos s l = Some true /\
  nlen l <= default default_max_update (c_max_update (cfg s)) /\
  N.of_nat (size (tokens s)) + nlen l <= default default_supply_cap (c_supply_cap (cfg s)) /\
  exists m idxs n, mint_metadata (last_id s) l (metas s) = Some m /\ length idxs = length l /\
    s' = set_by_owner (mint_lists (last_id s) l (by_owner s))
          (set_tokens (mint_tokens (last_id s) l (tokens s)) (set_last_id (last_id s + nlen l)
            (set_lcalls n (set_log (log s ++ zip idxs (mint_txs (e_now e) (last_id s) l)) (set_metas m s))))).
Proof.
  simpl. unfold mint, with_permission. destruct (has_permission _ _ _) eqn:P; [|discriminate].
  rewrite (with_lock_eq _ _ _ (commutes_mint e l)). destruct (decide _) as [G|G]; [|discriminate].
  destruct (mint_body e l s) as [[s1 r]|] eqn:M; [|discriminate].
  destruct (mint_body_inv _ _ _ _ _ M) as
      [(-> & er & -> & _)|(CM & Mx & Cap & m & idxs & n & Me & [(msg & -> & Hl & ->)|(-> & Hl & ->)])];
    simpl; intros [= <- <-].
  repeat split; auto. exists m, idxs, n. auto.
Qed.

(** Every other answer to a mint leaves ids, owners and supply alone. *)
Lemma step_mint_other e l s :
  (forall k, snd (step e (OMint l) s) <> ANat k) ->
  tokens (fst (step e (OMint l) s)) = tokens s /\ last_id (fst (step e (OMint l) s)) = last_id s /\
  by_owner (fst (step e (OMint l) s)) = by_owner s.
Proof.
  simpl. unfold mint, with_permission. destruct (has_permission _ _ _) eqn:P; [|auto].
  rewrite (with_lock_eq _ _ _ (commutes_mint e l)). destruct (decide _) as [G|G]; [|auto].
  destruct (mint_body e l s) as [[s1 r]|] eqn:M; [|auto].
  destruct (mint_body_inv _ _ _ _ _ M) as
      [(-> & er & -> & _)|(CM & Mx & Cap & m & idxs & n & Me & [(msg & -> & Hl & ->)|(-> & Hl & ->)])];
    simpl; auto.
  intros H. destruct (H _ eq_refl).
Qed.

Lemma step_burn e t s s' :
  step e (OBurn t) s = (s', AOk) ->
  guards s = ∅ /\
  exists tok i n, tokens s !! t = Some tok /\ acc_owner (t_owner tok) = e_caller e /\
    s' = set_tokens (delete t (tokens s)) (set_lcalls n (set_log (log s ++ [(i, burn_tx (e_now e) t tok)]) s)).
Proof.
  simpl. unfold burn_nft. rewrite (with_lock_eq _ _ _ (commutes_burn e t)).
  destruct (decide _) as [G|G]; [|discriminate].
  destruct (burn_body e t s) as [[s1 r]|] eqn:M; [|discriminate].
  destruct (burn_body_inv _ _ _ _ _ M) as [(Q & er & ->)|(tok & i & n & -> & T & O & ->)]; simpl; intros [= <-].
  split; [auto|]. exists tok, i, n. auto.
Qed.

Lemma step_burn_other e t s :
  snd (step e (OBurn t) s) <> AOk -> quiet s (fst (step e (OBurn t) s)).
Proof.
  simpl. unfold burn_nft. rewrite (with_lock_eq _ _ _ (commutes_burn e t)).
  destruct (decide _) as [G|G]; [|intros; apply quiet_refl].
  destruct (burn_body e t s) as [[s1 r]|] eqn:M; [|intros; apply quiet_refl].
  destruct (burn_body_inv _ _ _ _ _ M) as [(Q & er & ->)|(tok & i & n & -> & T & O & ->)]; simpl; auto.
  intros H; destruct (H eq_refl).
Qed.

(** ** C01: fresh ids *)
Lemma count_from_elem k n i : i ∈ count_from k n <-> k <= i < k + N.of_nat n.
Proof.
  revert k. induction n as [|n IH]; intros k; simpl.
  - rewrite elem_of_nil. lia.
  - rewrite elem_of_cons, IH. lia.
Qed.
Lemma count_from_NoDup k n : NoDup (count_from k n).
Proof.
  revert k. induction n as [|n IH]; intros k; simpl; constructor; auto.
  rewrite count_from_elem. lia.
Qed.
Lemma count_from_length k n : length (count_from k n) = n.
Proof. revert k; induction n; simpl; auto. Qed.
Lemma count_from_app k n m : count_from k (n + m) = count_from k n ++ count_from (k + N.of_nat n) m.
Proof.
  revert k. induction n as [|n IH]; intros k; simpl.
  - f_equal. lia.
  - f_equal. rewrite IH. do 2 f_equal. lia.
Qed.

Lemma minted_step e o s s' a :
  step e o s = (s', a) ->
  minted_ids (mkEv s e o a s') = count_from (last_id s) (length (minted_ids (mkEv s e o a s'))) /\
  last_id s' = last_id s + N.of_nat (length (minted_ids (mkEv s e o a s'))).
Proof.
  intros H. destruct (decide (is_mint o)) as [Hm|Hm].
  - destruct o; try contradiction. destruct a as [ | | | | |k| ].
    6: { unfold minted_ids; simpl. pose proof (step_mint _ _ _ _ _ H) as
           (-> & _ & _ & _ & _ & _ & m & idxs & n & _ & _ & ->).
         rewrite count_from_length. split; reflexivity. }
    all: unfold minted_ids; simpl; split; [reflexivity|].
    all: pose proof (step_mint_other e reqs s) as (_ & L & _); [rewrite H; discriminate|].
    all: rewrite H in L; simpl in L; lia.
  - assert (E : minted_ids (mkEv s e o a s') = []) by (destruct o; try reflexivity; destruct (Hm I)).
    rewrite E. split; [reflexivity|]. pose proof (step_last_id e o s Hm) as L. rewrite H in L; simpl in *; lia.
Qed.

Lemma minted_trace h s :
  all_minted (trace h s) = count_from (last_id s) (length (all_minted (trace h s))) /\
  last_id (run h s) = last_id s + N.of_nat (length (all_minted (trace h s))).
Proof.
  revert s. induction h as [|[e o] h IH]; intros s; simpl.
  - unfold all_minted; simpl. split; [reflexivity|lia].
  - destruct (step e o s) as [s' a] eqn:St. simpl. unfold all_minted; simpl. fold (all_minted (trace h s')).
    destruct (minted_step _ _ _ _ _ St) as [M1 M2]. destruct (IH s') as [I1 I2].
    rewrite app_length. split.
    + rewrite count_from_app. f_equal; [exact M1|]. rewrite <- M2. exact I1.
    + rewrite I2. lia.
Qed.

Lemma init_last_id caller url_ok a s : init caller url_ok a = Some s ->
  last_id s = 1 /\ tokens s = ∅ /\ by_owner s = ∅ /\ tok_appr s = ∅ /\ col_appr s = ∅ /\ metas s = ∅ /\
  windows s = ∅ /\ guards s = ∅ /\ files s = ∅ /\ log s = [] /\ pend s = ∅ /\ redirs s = ∅ /\ subs s = [] /\
  next_pend s = 0 /\ cfg s = init_cfg a /\
  perms s = (if i_test_mode a then test_mode_grants caller (i_permissions a) else i_permissions a).
Proof.
  intros Hi. apply init_inv in Hi. destruct Hi as (_ & _ & _ & _ & ->). simpl. repeat split; reflexivity.
Qed.

(** ** C03: supply *)
Lemma mint_tokens_size id l T :
  (forall i t, T !! i = Some t -> i < id) -> size (mint_tokens id l T) = (size T + length l)%nat.
Proof.
  revert id T. induction l as [|r l IH]; intros id T H; simpl; [lia|].
  rewrite IH.
  - rewrite map_size_insert_None; [lia|]. destruct (T !! id) eqn:E; [|reflexivity].
    apply H in E. lia.
  - intros i t. destruct (decide (id = i)) as [->|Hne].
    + intros _. lia.
    + rewrite lookup_insert_ne by exact Hne. intros Ht. apply H in Ht. lia.
Qed.

Lemma supply_step e o s s' a :
  wf s -> step e o s = (s', a) ->
  (size (tokens s') + length (burned_ids (mkEv s e o a s')) =
   size (tokens s) + length (minted_ids (mkEv s e o a s')))%nat.
Proof.
  intros W H.
  destruct (decide (is_mint o)) as [Hm|Hm]; [|destruct (decide (is_burn o)) as [Hb|Hb]].
  - destruct o; try contradiction. destruct a as [ | | | | |k| ].
    6: { unfold minted_ids, burned_ids; simpl. pose proof (step_mint _ _ _ _ _ H) as
           (-> & _ & _ & _ & _ & _ & m & idxs & n & _ & _ & ->). simpl.
         rewrite count_from_length, mint_tokens_size; [lia|].
         intros i t Ht. pose proof (wf_lt _ W _ _ Ht). lia. }
    all: unfold minted_ids, burned_ids; simpl.
    all: pose proof (step_mint_other e reqs s) as (T & _ & _); [rewrite H; discriminate|].
    all: rewrite H in T; simpl in T; rewrite T; lia.
  - destruct o; try contradiction. destruct a as [ | | | | |k| ].
    5: { unfold minted_ids, burned_ids; simpl. pose proof (step_burn _ _ _ _ H) as
           (_ & tok & i & n & T & _ & ->). simpl.
         rewrite map_size_delete_Some by eauto.
         assert (size (tokens s) <> 0%nat). { intros Z. apply map_size_empty_inv in Z. rewrite Z in T.
           rewrite lookup_empty in T; discriminate. } lia. }
    all: unfold minted_ids, burned_ids; simpl.
    all: pose proof (step_burn_other e tid s) as Q; rewrite H in Q; simpl in Q.
    all: rewrite (quiet_tokens _ _ (Q ltac:(discriminate))); lia.
  - assert (E1 : minted_ids (mkEv s e o a s') = []) by (destruct o; try reflexivity; destruct (Hm I)).
    assert (E2 : burned_ids (mkEv s e o a s') = []) by (destruct o; try reflexivity; destruct (Hb I)).
    rewrite E1, E2. pose proof (step_dom e o s W Hm Hb) as D. rewrite H in D. simpl in D.
    rewrite <- !size_dom, D. lia.
Qed.

Lemma supply_trace h s :
  wf s ->
  (size (tokens (run h s)) + length (all_burned (trace h s)) =
   size (tokens s) + length (all_minted (trace h s)))%nat.
Proof.
  revert s. induction h as [|[e o] h IH]; intros s W; simpl.
  - unfold all_minted, all_burned; simpl. lia.
  - destruct (step e o s) as [s' a] eqn:St. simpl. unfold all_minted, all_burned; simpl.
    fold (all_minted (trace h s')). fold (all_burned (trace h s')).
    rewrite !app_length.
    assert (W' : wf s') by (pose proof (step_wf e o s W) as X; rewrite St in X; exact X).
    pose proof (supply_step _ _ _ _ _ W St). specialize (IH s' W'). lia.
Qed.

(** ** Who exists: minted and not burned *)
Lemma exists_step e o s s' a i :
  wf s -> step e o s = (s', a) ->
  is_Some (tokens s' !! i) <->
  (is_Some (tokens s !! i) \/ i ∈ minted_ids (mkEv s e o a s')) /\ i ∉ burned_ids (mkEv s e o a s').
Proof.
  intros W H.
  destruct (decide (is_mint o)) as [Hm|Hm]; [|destruct (decide (is_burn o)) as [Hb|Hb]].
  - destruct o; try contradiction. destruct a as [ | | | | |k| ].
    6: { unfold minted_ids, burned_ids; simpl. pose proof (step_mint _ _ _ _ _ H) as
           (-> & _ & _ & _ & _ & _ & m & idxs & n & _ & _ & ->). simpl.
         rewrite count_from_elem, mint_tokens_lookup. unfold nlen.
         rewrite elem_of_nil. destruct (decide _) as [D|D].
         - assert (N.to_nat (i - last_id s) < length reqs)%nat as L by lia.
           apply lookup_lt_is_Some_2 in L. destruct L as [r ->]. simpl. split; eauto.
         - split; [intros; tauto|]. intros [[?|?] _]; [auto|lia]. }
    all: unfold minted_ids, burned_ids; simpl; rewrite elem_of_nil.
    all: pose proof (step_mint_other e reqs s) as (T & _ & _); [rewrite H; discriminate|].
    all: rewrite H in T; simpl in T; rewrite T; tauto.
  - destruct o; try contradiction. destruct a as [ | | | | |k| ].
    5: { unfold minted_ids, burned_ids; simpl. pose proof (step_burn _ _ _ _ H) as
           (_ & tok & i' & n & T & _ & ->). simpl. rewrite elem_of_nil, elem_of_list_singleton.
         destruct (decide (i = tid)) as [->|Hne].
         - rewrite lookup_delete. split; [intros [? ?]; discriminate|tauto].
         - rewrite lookup_delete_ne by auto. tauto. }
    all: unfold minted_ids, burned_ids; simpl; rewrite elem_of_nil.
    all: pose proof (step_burn_other e tid s) as Q; rewrite H in Q; simpl in Q.
    all: rewrite (quiet_tokens _ _ (Q ltac:(discriminate))); tauto.
  - assert (E1 : minted_ids (mkEv s e o a s') = []) by (destruct o; try reflexivity; destruct (Hm I)).
    assert (E2 : burned_ids (mkEv s e o a s') = []) by (destruct o; try reflexivity; destruct (Hb I)).
    rewrite E1, E2, elem_of_nil. pose proof (step_dom e o s W Hm Hb) as D. rewrite H in D. simpl in D.
    rewrite <- !elem_of_dom, D. tauto.
Qed.

(** Burned tokens existed just before, hence at most once. *)
Lemma burned_exists e o s s' a i :
  step e o s = (s', a) -> i ∈ burned_ids (mkEv s e o a s') ->
  exists tok, tokens s !! i = Some tok /\ acc_owner (t_owner tok) = e_caller e.
Proof.
  unfold burned_ids; simpl. destruct o; try (intros _ X; apply elem_of_nil in X; contradiction).
  destruct a; try (intros _ X; apply elem_of_nil in X; contradiction).
  intros H X. apply elem_of_list_singleton in X as ->.
  destruct (step_burn _ _ _ _ H) as (_ & tok & j & n & T & O & _). eauto.
Qed.

Lemma exists_trace h s i :
  wf s ->
  is_Some (tokens (run h s) !! i) <->
  (is_Some (tokens s !! i) \/ i ∈ all_minted (trace h s)) /\ i ∉ all_burned (trace h s).
Proof.
  revert s. induction h as [|[e o] h IH]; intros s W; simpl.
  - unfold all_minted, all_burned; simpl. rewrite elem_of_nil. tauto.
  - destruct (step e o s) as [s' a] eqn:St. simpl. unfold all_minted, all_burned; simpl.
    fold (all_minted (trace h s')). fold (all_burned (trace h s')).
    assert (W' : wf s') by (pose proof (step_wf e o s W) as X; rewrite St in X; exact X).
    rewrite (IH s' W'), (exists_step _ _ _ _ _ i W St), !elem_of_app.
    destruct (minted_trace h s') as [M _]. destruct (minted_step _ _ _ _ _ St) as [N1 N2].
    assert (X : i ∈ all_minted (trace h s') -> i ∉ burned_ids (mkEv s e o a s')).
    { intros Hm Hb. rewrite M, count_from_elem in Hm.
      destruct (burned_exists _ _ _ _ _ _ St Hb) as (tok & T & _). pose proof (wf_lt _ W _ _ T). lia. }
    tauto.
Qed.

