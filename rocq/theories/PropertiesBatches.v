(** Minting in one call or in several comes to the same: C134. *)
From Verif Require PropertiesMirror.
From Verif Require Import Base ModelPrincipal ModelState ModelIcrc7 ModelIcrc37 ModelManagement ModelLifecycle ModelQueries ModelStep
  ProofsItems ProofsManage ProofsMicro Spec ProofsCore Scenario.
Local Open Scope N_scope.

(** The logging loop, on the two fields it touches. *)
Fixpoint mlog (e : env) (id : N) (l : list mint_req) (n : N) (L : list (N * tx)) : N * list (N * tx) * option string :=
  match l with
  | [] => (n, L, None)
  | r :: rest =>
      let t := mint_tx (e_now e) id r in
      match e_log e n t with
      | LOk i => mlog e (id + 1) rest (n + 1) (L ++ [(i, t)])
      | a => (n + 1, L, Some (logans_msg a))
      end
  end.

Lemma mint_log_mlog e l : forall id s,
  mint_log e id l s =
    let '(n, L, o) := mlog e id l (lcalls s) (log s) in (set_lcalls n (set_log L s), o).
Proof.
  induction l as [|r l IH]; intros id s; simpl; [destruct s; reflexivity|].
  unfold add_transaction. destruct (e_log e (lcalls s) (mint_tx (e_now e) id r)) as [i|i|i|i] eqn:E;
    [|destruct s; reflexivity..].
  rewrite IH. simpl. destruct (mlog e (id + 1) l _ _) as [[n L] o]. reflexivity.
Qed.

Lemma mlog_app e l1 l2 : forall id n L,
  mlog e id (l1 ++ l2) n L =
    match mlog e id l1 n L with
    | (n1, L1, None) => mlog e (id + nlen l1) l2 n1 L1
    | x => x
    end.
Proof.
  induction l1 as [|r l1 IH]; intros id n L; simpl.
  - unfold nlen; simpl. rewrite N.add_0_r. reflexivity.
  - destruct (e_log e n (mint_tx (e_now e) id r)); [|reflexivity..]. rewrite IH.
    replace (id + 1 + nlen l1) with (id + nlen (r :: l1)) by (unfold nlen; simpl length; lia). reflexivity.
Qed.

Lemma mint_metadata_app l1 l2 : forall id m,
  mint_metadata id (l1 ++ l2) m =
    match mint_metadata id l1 m with None => None | Some m1 => mint_metadata (id + nlen l1) l2 m1 end.
Proof.
  induction l1 as [|r l1 IH]; intros id m; simpl.
  - unfold nlen; simpl. rewrite N.add_0_r. reflexivity.
  - destruct (add_metadata id (mr_meta r) m) as [m1|]; [|reflexivity]. rewrite IH.
    replace (id + 1 + nlen l1) with (id + nlen (r :: l1)) by (unfold nlen; simpl length; lia). reflexivity.
Qed.

Lemma mint_tokens_app l1 l2 : forall id T,
  mint_tokens id (l1 ++ l2) T = mint_tokens (id + nlen l1) l2 (mint_tokens id l1 T).
Proof.
  induction l1 as [|r l1 IH]; intros id T; simpl.
  - unfold nlen; simpl. rewrite N.add_0_r. reflexivity.
  - rewrite IH. f_equal. unfold nlen; simpl length; lia.
Qed.

Lemma mint_lists_app l1 l2 : forall id B,
  mint_lists id (l1 ++ l2) B = mint_lists (id + nlen l1) l2 (mint_lists id l1 B).
Proof.
  induction l1 as [|r l1 IH]; intros id B; simpl.
  - unfold nlen; simpl. rewrite N.add_0_r. reflexivity.
  - rewrite IH. f_equal. unfold nlen; simpl length; lia.
Qed.

Lemma check_memos_app s l1 l2 :
  check_memos s (l1 ++ l2) = Some true <-> check_memos s l1 = Some true /\ check_memos s l2 = Some true.
Proof.
  induction l1 as [|r l1 IH]; simpl; [tauto|].
  destruct (check_memo s (mr_memo r)) as [[|]|]; [exact IH| |]; split; try discriminate; intros [? _]; discriminate.
Qed.
Lemma check_memos_cfg s s' l : cfg s' = cfg s -> check_memos s' l = check_memos s l.
Proof.
  intros C. induction l as [|r l IH]; simpl; [reflexivity|]. unfold check_memo in *. rewrite C, IH. reflexivity.
Qed.

(** What a successful mint does, with the condition for success. *)
Definition minted (l : list mint_req) (m : gmap N (gmap string value)) (n : N) (L : list (N * tx)) (s : state) : state :=
  set_by_owner (mint_lists (last_id s) l (by_owner s))
    (set_tokens (mint_tokens (last_id s) l (tokens s)) (set_last_id (last_id s + nlen l)
      (set_lcalls n (set_log L (set_metas m s))))).

Lemma step_mint_iff e l s s' k :
  step e (OMint l) s = (s', ANat k) <->
  k = last_id s /\ guards s = ∅ /\ has_permission s (e_caller e) PMinting = true /\
  check_memos s l = Some true /\
  nlen l <= default default_max_update (c_max_update (cfg s)) /\
  N.of_nat (size (tokens s)) + nlen l <= default default_supply_cap (c_supply_cap (cfg s)) /\
  exists m n L, mint_metadata (last_id s) l (metas s) = Some m /\
    mlog e (last_id s) l (lcalls s) (log s) = (n, L, None) /\ s' = minted l m n L s.
Proof.
  cbn [step]. unfold mint, with_permission. rewrite (with_lock_eq _ _ _ (commutes_mint e l)).
  split.
  - destruct (has_permission _ _ _) eqn:P; [|discriminate]. destruct (decide _) as [G|G]; [|discriminate].
    unfold mint_body.
    destruct (_ <? nlen l) eqn:E1; [discriminate|]. destruct (_ <? _ + _) eqn:E2; [discriminate|].
    apply N.ltb_ge in E1. apply N.ltb_ge in E2.
    destruct (check_memos s l) as [[|]|] eqn:CM; [|discriminate..].
    destruct (mint_metadata _ l (metas s)) as [m|] eqn:M; [|discriminate].
    rewrite mint_log_mlog. simpl. destruct (mlog e (last_id s) l (lcalls s) (log s)) as [[n L] [o|]] eqn:Q; [discriminate|].
    simpl. rewrite mint_insert_eq. intros [= <- <-].
    repeat split; auto. exists m, n, L. repeat split; auto.
  - intros (-> & G & -> & CM & E1 & E2 & m & n & L & M & Q & ->).
    rewrite decide_True by exact G. unfold mint_body.
    apply N.ltb_ge in E1. apply N.ltb_ge in E2. rewrite E1, E2, CM, M, mint_log_mlog.
    cbn [lcalls log set_metas]. rewrite Q. cbn [ans_nat]. rewrite mint_insert_eq. reflexivity.
Qed.

Lemma minted_size l s m n L :
  wf s -> N.of_nat (size (tokens (minted l m n L s))) = N.of_nat (size (tokens s)) + nlen l.
Proof.
  intros W. simpl. rewrite mint_tokens_size; [unfold nlen; lia|].
  intros i t T. apply (wf_lt _ W) in T. lia.
Qed.

(** ** One call is two calls *)
Theorem C134_split e l1 l2 s s' n :
  reachable s -> step e (OMint (l1 ++ l2)) s = (s', ANat n) ->
  exists s1, step e (OMint l1) s = (s1, ANat n) /\ step e (OMint l2) s1 = (s', ANat (n + nlen l1)).
Proof.
  intros R H. apply step_mint_iff in H.
  destruct H as (-> & G & P & CM & E1 & E2 & m & k & L & M & Q & ->).
  assert (NL : nlen (l1 ++ l2) = nlen l1 + nlen l2) by (unfold nlen; rewrite app_length; lia).
  rewrite NL in E1, E2. apply check_memos_app in CM. destruct CM as [CM1 CM2].
  rewrite mint_metadata_app in M. destruct (mint_metadata (last_id s) l1 (metas s)) as [m1|] eqn:M1; [|discriminate].
  rewrite mlog_app in Q. destruct (mlog e (last_id s) l1 (lcalls s) (log s)) as [[n1 L1] [o|]] eqn:Q1; [discriminate|].
  exists (minted l1 m1 n1 L1 s). split; apply step_mint_iff.
  - repeat split; auto; try lia. exists m1, n1, L1. auto.
  - split; [reflexivity|]. split; [exact G|]. split; [exact P|].
    split; [rewrite <- CM2; apply check_memos_cfg; reflexivity|].
    split; [simpl; lia|]. split.
    + rewrite minted_size by (apply reachable_wf; exact R). cbn [cfg minted set_by_owner set_tokens set_last_id set_lcalls set_log set_metas]. lia.
    + exists m, k, L. split; [exact M|]. split; [exact Q|].
      unfold minted. simpl. rewrite mint_lists_app, mint_tokens_app, NL, N.add_assoc. reflexivity.
Qed.
Print Assumptions C134_split.

(** ** Two calls are one, if the batch limit admits it *)
Theorem C134_join e l1 l2 s s1 s2 n1 n2 :
  reachable s -> step e (OMint l1) s = (s1, ANat n1) -> step e (OMint l2) s1 = (s2, ANat n2) ->
  nlen l1 + nlen l2 <= default 100 (c_max_update (cfg s)) ->
  step e (OMint (l1 ++ l2)) s = (s2, ANat n1) /\ n2 = n1 + nlen l1.
Proof.
  intros R H1 H2 Mx. apply step_mint_iff in H1, H2.
  destruct H1 as (-> & G & P & CM1 & E1 & E2 & m1 & k1 & L1 & M1 & Q1 & ->).
  destruct H2 as (-> & _ & _ & CM2 & _ & E4 & m & k & L & M & Q & ->).
  rewrite minted_size in E4 by (apply reachable_wf; exact R).
  cbn [cfg minted set_by_owner set_tokens set_last_id set_lcalls set_log set_metas last_id metas lcalls log] in *.
  split; [|reflexivity].
  assert (NL : nlen (l1 ++ l2) = nlen l1 + nlen l2) by (unfold nlen; rewrite app_length; lia).
  apply step_mint_iff. rewrite NL. split; [reflexivity|]. split; [exact G|]. split; [exact P|].
  split; [apply check_memos_app; split; [exact CM1|rewrite <- CM2; symmetry; apply check_memos_cfg; reflexivity]|].
  split; [exact Mx|]. split; [lia|].
  exists m, k, L. split; [rewrite mint_metadata_app, M1; exact M|]. split; [rewrite mlog_app, Q1; exact Q|].
  unfold minted. simpl. rewrite mint_lists_app, mint_tokens_app, NL, N.add_assoc. reflexivity.
Qed.
Print Assumptions C134_join.

(** ** One call is any sequence of calls for its pieces *)

(** The calls that mint the pieces one after the other. *)
Definition mint_calls (e : env) (ls : list (list mint_req)) : history := map (fun l => (e, OMint l)) ls.

(** However the requests of a successful call are cut, minting the pieces in order ends in the same state: same ids, owners,
    metadata and blocks. *)
Theorem C134_pieces e ls s s' n :
  reachable s -> step e (OMint (concat ls)) s = (s', ANat n) ->
  run (mint_calls e ls) s = s' /\
  forall ev, ev ∈ trace (mint_calls e ls) s -> exists k, ev_ans ev = ANat k /\ n <= k.
Proof.
  revert s s' n. induction ls as [|l ls IH]; intros s s' n R H.
  - split.
    + apply step_mint_iff in H. destruct H as (_ & _ & _ & _ & _ & _ & m & k & L & M & Q & ->).
      simpl in M, Q. injection M as <-. injection Q as <- <-. unfold minted, nlen. simpl.
      rewrite N.add_0_r. destruct s; reflexivity.
    + intros ev E. apply elem_of_nil in E. destruct E.
  - simpl concat in H. destruct (C134_split _ _ _ _ _ _ R H) as (s1 & H1 & H2).
    assert (R1 : reachable s1) by (replace s1 with (fst (step e (OMint l) s)) by (rewrite H1; reflexivity); apply PropertiesMirror.run_reachable_step; exact R).
    destruct (IH _ _ _ R1 H2) as [E F]. cbn [mint_calls map run trace]. rewrite H1. cbn [fst snd]. split; [exact E|].
    intros ev X. apply elem_of_cons in X. destruct X as [->|X].
    + exists n. split; [reflexivity|lia].
    + destruct (F _ X) as (k & ? & ?). exists k. split; [assumption|lia].
Qed.
Print Assumptions C134_pieces.

(** Five tokens for two recipients, in one call or in three. *)
Definition five : list mint_req :=
  [mkMint (mkAcc alice None) None [("a"%string, VText "x")]; mkMint (mkAcc bob None) (Some [7]) [];
   mkMint (mkAcc alice None) None []; mkMint (mkAcc bob (Some (repeat 1 32))) None [("b"%string, VNat 5)];
   mkMint (mkAcc alice None) None [("c"%string, VText "y")]].

Example C134_example :
  exists s', step (from_ admin 5) (OMint five) demo1 = (s', ANat 4) /\ last_id s' = 9 /\
    run (mint_calls (from_ admin 5) [take 2 five; take 1 (drop 2 five); drop 3 five]) demo1 = s'.
Proof.
  assert (X : exists s', step (from_ admin 5) (OMint five) demo1 = (s', ANat 4)).
  { exists (fst (step (from_ admin 5) (OMint five) demo1)).
    rewrite (surjective_pairing (step _ _ _)) at 1. f_equal. }
  destruct X as [s' X]. exists s'. split; [exact X|]. split.
  - replace s' with (fst (step (from_ admin 5) (OMint five) demo1)) by (rewrite X; reflexivity). vm_compute. reflexivity.
  - refine (proj1 (C134_pieces (from_ admin 5) [take 2 five; take 1 (drop 2 five); drop 3 five] demo1 s' 4 _ X)).
    apply (demo_reachable demo1_h).
Qed.
