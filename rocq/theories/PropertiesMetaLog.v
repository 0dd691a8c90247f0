(** C163: what the log tells about the metadata of a token. *)
From Verif Require Import Base ModelPrincipal ModelState ModelIcrc7 ModelIcrc37 ModelManagement ModelLifecycle
  ModelQueries ModelStep ProofsItems ProofsManage ProofsMicro Spec ProofsCore ProofsLock ProofsMeta Scenario PropertiesMeta.

(** What a block says about the metadata of [t]: those before and those after an update. *)
Definition told (t : N) (b : tx) : option (value * value) :=
  if bool_decide (tx_btype b = "7update_token"%string /\ tx_tid b = Some t) then
    match tx_meta b with
    | Some (VMap kvs) =>
        match last_value kvs "icrc7:previous_metadata", last_value kvs "icrc7:new_metadata" with
        | Some p, Some n => Some (p, n)
        | _, _ => None
        end
    | _ => None
    end
  else None.

(** All that a list of blocks says about it, in order. *)
Definition updates_of (bs : list tx) (t : N) : list (value * value) := omap (told t) bs.

(** The updates lead from the metadata [f] to the metadata [g]: each starts where the one before ended. *)
Fixpoint chained (f : string -> option value) (l : list (value * value)) (g : string -> option value) : Prop :=
  match l with
  | [] => forall k, g k = f k
  | (p, n) :: r => exists x y, p = VMap x /\ n = VMap y /\ lists x f /\ NoDup (map fst y) /\ chained (last_value y) r g
  end.

(** No update of the trace failed for a reason of the log. *)
Definition updates_logged (tr : list event) : Prop :=
  forall ev t kvs m, ev ∈ tr -> ev_op ev = OUpdateMeta t kvs -> ev_ans ev <> AErr (EStorageCanisterError m).

Lemma updates_app a b t : updates_of (a ++ b) t = updates_of a t ++ updates_of b t.
Proof. apply omap_app. Qed.
Lemma updates_none l t : Forall (fun b => tx_btype b <> "7update_token"%string) l -> updates_of l t = [].
Proof.
  induction 1 as [|b l N _ IH]; [reflexivity|]. unfold updates_of in *. cbn [omap list_omap]. rewrite IH. unfold told.
  rewrite bool_decide_eq_false_2; [reflexivity|]. tauto.
Qed.

Lemma lists_last x f : lists x f -> forall k, last_value x k = f k.
Proof.
  intros [D L] k. destruct (f k) as [v|] eqn:E.
  - apply L in E. apply (last_value_nodup x k D v), E.
  - destruct (last_value x k) as [v|] eqn:F; [|reflexivity]. apply (last_value_nodup x k D v), L in F. congruence.
Qed.
Lemma lists_ext x f g : (forall k, g k = f k) -> lists x f -> lists x g.
Proof. intros E [D L]. split; [exact D|]. intros k v. rewrite E. apply L. Qed.
Lemma chained_ext l f f' g : (forall k, f' k = f k) -> chained f l g -> chained f' l g.
Proof.
  intros E. destruct l as [|[p n] l]; cbn.
  - intros H k. rewrite E. apply H.
  - intros (x & y & ? & ? & L & R). exists x, y. split; [assumption|]. split; [assumption|]. split; [|exact R].
    apply (lists_ext x f); assumption.
Qed.
Lemma chained_app l l' f g h : chained f l g -> chained g l' h -> chained f (l ++ l') h.
Proof.
  revert f. induction l as [|[p n] l IH]; intros f; cbn.
  - intros E. apply chained_ext. intros k. symmetry. apply E.
  - intros (x & y & P1 & P2 & L & D & R) H. exists x, y. eauto 10.
Qed.

(** ** One message *)

Lemma mint_txs_btype now id l b : b ∈ mint_txs now id l -> tx_btype b = "7mint"%string.
Proof.
  revert id. induction l as [|r l IH]; intros id; cbn; [intros H; apply elem_of_nil in H; destruct H|].
  rewrite elem_of_cons. intros [->|H]; [reflexivity|exact (IH _ H)].
Qed.

(** Messages that are not updates of metadata: what they leave alone. *)
Definition leaves (s s' : state) : Prop :=
  last_id s <= last_id s' /\ (forall t, t < last_id s -> metas s' !! t = metas s !! t) /\
  exists new, blocks s' = blocks s ++ new /\ Forall (fun b => tx_btype b <> "7update_token"%string) new.
Lemma leaves_refl s : leaves s s.
Proof. split; [lia|]. split; [reflexivity|]. exists []. rewrite app_nil_r. auto. Qed.
Lemma leaves_trans s1 s2 s3 : leaves s1 s2 -> leaves s2 s3 -> leaves s1 s3.
Proof.
  intros (L & M & n & B & F) (L' & M' & n' & B' & F'). split; [lia|]. split.
  - intros t H. rewrite M' by lia. auto.
  - exists (n ++ n'). rewrite B', B, app_assoc. split; [reflexivity|]. apply Forall_app. auto.
Qed.
Lemma leaves_one s s' i b : last_id s' = last_id s -> metas s' = metas s -> log s' = log s ++ [(i, b)] ->
  tx_btype b <> "7update_token"%string -> leaves s s'.
Proof.
  intros L M G B. split; [lia|]. split; [intros t _; rewrite M; reflexivity|]. exists [b]. unfold blocks. rewrite G, map_app.
  split; [reflexivity|]. constructor; [exact B|constructor].
Qed.
Lemma leaves_same s s' : last_id s' = last_id s -> metas s' = metas s -> log s' = log s -> leaves s s'.
Proof.
  intros L M G. split; [lia|]. split; [intros t _; rewrite M; reflexivity|]. exists []. unfold blocks. rewrite G, app_nil_r. auto.
Qed.
Lemma leaves_mint s s' l m idxs now : last_id s <= last_id s' -> mint_metadata (last_id s) l (metas s) = Some m -> metas s' = m ->
  log s' = log s ++ zip idxs (mint_txs now (last_id s) l) -> leaves s s'.
Proof.
  intros L M E G. split; [exact L|]. split.
  - intros t H. rewrite E. apply mint_metadata_spec in M as [M _]. apply M. left. exact H.
  - exists (map snd (zip idxs (mint_txs now (last_id s) l))). unfold blocks. rewrite G, map_app. split; [reflexivity|].
    apply Forall_forall. intros b H. apply elem_of_list_fmap in H as ([i b'] & -> & H). apply elem_of_zip_r in H.
    cbn [snd]. rewrite (mint_txs_btype _ _ _ _ H). discriminate.
Qed.

Lemma micro_leaves e o s s' : (forall t kvs, o <> OUpdateMeta t kvs) -> micro e o s s' -> leaves s s'.
Proof.
  intros N H. destruct H;
    try (apply leaves_same; [exact (quiet_last_id _ _ H)|exact (quiet_metas _ _ H)|exact (quiet_log _ _ H)]);
    try (match goal with Q : quiet _ _ |- _ =>
           eapply leaves_one; [exact (quiet_last_id _ _ Q)|exact (quiet_metas _ _ Q)|reflexivity|discriminate] end);
    try (match goal with Q : quiet _ _ |- _ =>
           apply leaves_same; [exact (quiet_last_id _ _ Q)|exact (quiet_metas _ _ Q)|exact (quiet_log _ _ Q)] end);
    try (apply leaves_same; reflexivity);
    try (eapply leaves_one; [reflexivity|reflexivity|reflexivity|discriminate]);
    try (destruct (N _ _ eq_refl)).
  - eapply leaves_mint; [|eassumption|reflexivity|reflexivity]. cbn. lia.
  - eapply leaves_mint; [|eassumption|reflexivity|reflexivity]. cbn. lia.
  - destruct p, r; apply leaves_same; reflexivity.
Qed.
Lemma step_leaves e o s : (forall t kvs, o <> OUpdateMeta t kvs) -> leaves s (fst (step e o s)).
Proof.
  intros N. pose proof (step_micros e o s) as M. unfold micros in M. induction M as [|a b c M1 _ IH]; [apply leaves_refl|].
  eapply leaves_trans; [eapply micro_leaves; eassumption|exact IH].
Qed.

Lemma told_update e t before after : told t (update_meta_tx e t before after) = Some (before, after).
Proof. unfold told. rewrite bool_decide_eq_true_2 by (split; reflexivity). reflexivity. Qed.
Lemma told_other e t t' before after : t <> t' -> told t' (update_meta_tx e t before after) = None.
Proof. intros N. unfold told. rewrite bool_decide_eq_false_2; [reflexivity|]. intros [_ E]. cbn in E. congruence. Qed.

Lemma step_chain e o s t : wf s -> t < last_id s ->
  (forall t' kvs m, o = OUpdateMeta t' kvs -> snd (step e o s) <> AErr (EStorageCanisterError m)) ->
  t < last_id (fst (step e o s)) /\
  exists l, updates_of (blocks (fst (step e o s))) t = updates_of (blocks s) t ++ l /\
    chained (meta_of s t) l (meta_of (fst (step e o s)) t).
Proof.
  intros W T N. assert (D : (forall t' kvs, o <> OUpdateMeta t' kvs) \/ exists t' kvs, o = OUpdateMeta t' kvs).
  { destruct o; try (left; discriminate). right. eauto. }
  destruct D as [D|(t' & kvs & ->)].
  - destruct (step_leaves e o s D) as (L & M & new & B & F). split; [lia|]. exists []. rewrite B, updates_app, (updates_none new t F).
    split; [reflexivity|]. intros k. unfold meta_of. rewrite M by exact T. reflexivity.
  - destruct (step e (OUpdateMeta t' kvs) s) as [s' an] eqn:S. cbn [fst snd] in *.
    destruct (step_update _ _ _ _ _ _ W S) as [(-> & _)|(_ & _ & _ & m & n & R & [(msg & -> & _)|(i & _ & ->)])].
    + split; [exact T|]. exists []. rewrite app_nil_r. split; [reflexivity|]. intros k. reflexivity.
    + destruct (N t' kvs msg eq_refl eq_refl).
    + split; [exact T|]. apply replace_metadata_spec in R as [R1 R2].
      unfold blocks. cbn [log set_lcalls set_log]. rewrite map_app, updates_app. cbn [map snd].
      destruct (decide (t' = t)) as [->|E].
      * exists [(meta_value t (metas s), meta_value t m)]. unfold updates_of at 2. cbn [omap list_omap]. rewrite told_update.
        split; [reflexivity|]. cbn [chained]. exists (sorted_pairs (default ∅ (metas s !! t))), (sorted_pairs (default ∅ (m !! t))).
        split; [reflexivity|]. split; [reflexivity|]. split; [apply sorted_pairs_lists|].
        pose proof (sorted_pairs_lists (default ∅ (m !! t))) as P. split; [apply P|]. intros k. rewrite (lists_last _ _ P). reflexivity.
      * exists []. unfold updates_of at 2. cbn [omap list_omap]. rewrite told_other by exact E. split; [reflexivity|].
        intros k. unfold meta_of. cbn. rewrite R1 by congruence. reflexivity.
Qed.

(** ** Histories *)

Lemma chain_run h s t : wf s -> t < last_id s -> updates_logged (trace h s) ->
  exists l, updates_of (blocks (run h s)) t = updates_of (blocks s) t ++ l /\ chained (meta_of s t) l (meta_of (run h s) t).
Proof.
  revert s. induction h as [|[e o] h IH]; intros s W T U.
  - exists []. rewrite app_nil_r. split; [reflexivity|]. intros k. reflexivity.
  - cbn [run trace] in *. destruct (step e o s) as [s' a] eqn:S. pose proof (step_chain e o s t W T) as C. rewrite S in C. cbn [fst snd] in *.
    destruct C as (T' & l & B & C).
    { intros t' kvs m ->. apply (U (mkEv s e (OUpdateMeta t' kvs) a s') t' kvs m); [left|reflexivity]. }
    destruct (IH s') as (l' & B' & C').
    + pose proof (step_wf e o s W) as X. rewrite S in X. exact X.
    + exact T'.
    + intros ev t' kvs m H. apply (U ev t' kvs m). right. exact H.
    + exists (l ++ l'). rewrite B', B, app_assoc. split; [reflexivity|]. eapply chained_app; eassumption.
Qed.

(** As long as the log refuses no update, the log tells every change of the metadata of a token that exists: the blocks about it say
    how the metadata of before became those of afterwards, one after the other.
    Missing: changes that the log refused. *)
Theorem C163_chain_partial h s t :
  reachable s -> is_Some (tokens s !! t) -> updates_logged (trace h s) ->
  exists l, updates_of (blocks (run h s)) t = updates_of (blocks s) t ++ l /\ chained (meta_of s t) l (meta_of (run h s) t).
Proof.
  intros Re [tok T]. pose proof (reachable_wf s Re) as W. apply chain_run; [exact W|]. apply (wf_lt _ W _ _ T).
Qed.
Print Assumptions C163_chain_partial.

(** Before a token is minted the log tells nothing about its metadata. *)
Lemma unminted_told_step e o s t : wf s -> (forall u, last_id s <= u -> updates_of (blocks s) u = []) ->
  last_id (fst (step e o s)) <= t -> updates_of (blocks (fst (step e o s))) t = [].
Proof.
  intros W H T. assert (D : (forall t' kvs, o <> OUpdateMeta t' kvs) \/ exists t' kvs, o = OUpdateMeta t' kvs).
  { destruct o; try (left; discriminate). right. eauto. }
  destruct D as [D|(t' & kvs & ->)].
  - destruct (step_leaves e o s D) as (L & M & new & B & F). rewrite B, updates_app, (updates_none new t F), app_nil_r. apply H. lia.
  - destruct (step e (OUpdateMeta t' kvs) s) as [s' an] eqn:S. cbn [fst] in *.
    destruct (step_update _ _ _ _ _ _ W S) as [(-> & _)|(_ & _ & [tok K] & m & n & R & [(msg & -> & ->)|(i & _ & ->)])]; [apply H, T..|].
    unfold blocks. cbn [log set_lcalls set_log last_id set_metas] in *. rewrite map_app, updates_app. cbn [map snd].
    unfold updates_of at 2. cbn [omap list_omap]. pose proof (wf_lt _ W _ _ K) as X. rewrite told_other by lia. rewrite app_nil_r. apply H, T.
Qed.
Lemma unminted_told_run h s : wf s -> (forall u, last_id s <= u -> updates_of (blocks s) u = []) ->
  forall t, last_id (run h s) <= t -> updates_of (blocks (run h s)) t = [].
Proof.
  revert s. induction h as [|[e o] h IH]; intros s W H; [exact H|]. cbn [run]. apply IH; [apply step_wf, W|].
  intros u. apply unminted_told_step; assumption.
Qed.

(** The whole life of a token: from the metadata it was minted with to those it has, through all the updates in the log.
    Missing: the metadata it was minted with, which the log does not tell, and changes that the log refused. *)
Theorem C163_life_partial caller url_ok a s0 h1 e l n h2 k r :
  init caller url_ok a = Some s0 -> mints_logged (trace h1 s0) ->
  snd (step e (OMint l) (run h1 s0)) = ANat n -> l !! k = Some r ->
  let s1 := fst (step e (OMint l) (run h1 s0)) in
  updates_logged (trace h2 s1) ->
  chained (last_value (mr_meta r)) (updates_of (blocks (run h2 s1)) (n + N.of_nat k)) (meta_of (run h2 s1) (n + N.of_nat k)).
Proof.
  intros I ML A K s1 U. pose proof (run_wf h1 s0 (init_wf _ _ _ _ I)) as W.
  assert (B0 : forall t, last_id (run h1 s0) <= t -> updates_of (blocks (run h1 s0)) t = []).
  { apply unminted_told_run; [apply (init_wf _ _ _ _ I)|]. intros u _. apply init_inv in I as (_ & _ & _ & _ & ->). reflexivity. }
  destruct (step e (OMint l) (run h1 s0)) as [s' an] eqn:S. cbn [fst snd] in *. subst an s1.
  pose proof (C42_mint_metadata_partial _ _ _ _ _ _ _ _ _ I ML S k r) as M.
  assert (W' : wf s') by (pose proof (step_wf e (OMint l) (run h1 s0) W) as X; rewrite S in X; exact X).
  pose proof (step_leaves e (OMint l) (run h1 s0) ltac:(discriminate)) as (_ & _ & new & B & F). rewrite S in B. cbn [fst] in B.
  destruct (step_mint _ _ _ _ _ S) as (-> & _ & _ & _ & _ & _ & m & idxs & c & _ & _ & ES).
  assert (L : (k < length l)%nat) by (apply lookup_lt_Some in K; exact K).
  destruct (chain_run h2 s' (last_id (run h1 s0) + N.of_nat k) W') as (x & B2 & C); [rewrite ES; cbn; unfold nlen; lia|exact U|].
  rewrite B2, B, updates_app, (updates_none new _ F), (B0 _) by lia. cbn [app]. revert C. apply chained_ext. intros j. symmetry. apply (M j K).
Qed.
Print Assumptions C163_life_partial.

Lemma chained_last l f g p n : chained f (l ++ [(p, n)]) g -> exists y, n = VMap y /\ lists y g.
Proof.
  revert f. induction l as [|[p' n'] l IH]; intros f; cbn [app chained].
  - intros (x & y & _ & -> & _ & D & E). exists y. split; [reflexivity|]. split; [exact D|]. intros k v. rewrite E.
    symmetry. apply (last_value_nodup y k D v).
  - intros (x & y & _ & _ & _ & _ & R). apply (IH _ R).
Qed.

(** So a token has the metadata that the last block about them says, if the log refused no update. *)
Theorem C163_last_partial caller url_ok a s0 h t p n ids ans i :
  init caller url_ok a = Some s0 -> updates_logged (trace h s0) ->
  last (updates_of (blocks (run h s0)) t) = Some (p, n) ->
  icrc7_token_metadata (run h s0) ids = Some ans -> ids !! i = Some t -> is_Some (tokens (run h s0) !! t) ->
  exists x y, ans !! i = Some (Some x) /\ n = VMap y /\ (forall k v, (k, v) ∈ x <-> (k, v) ∈ y).
Proof.
  intros I U L Q J T.
  assert (Re : reachable (run h s0)) by (exists caller, url_ok, a, s0, h; auto).
  destruct (C42_query _ _ _ _ _ Re Q J) as [[X _]|(_ & x & A & Lx)]; [rewrite X in T; destruct T; discriminate|].
  enough (E : exists y, n = VMap y /\ lists y (meta_of (run h s0) t)).
  { destruct E as (y & -> & Ly). exists x, y. split; [exact A|]. split; [reflexivity|]. intros k v. rewrite (proj2 Lx), (proj2 Ly). reflexivity. }
  clear Q J A Lx x ids ans i T Re.
  assert (Z : forall h s, wf s -> (forall u, last_id s <= u -> updates_of (blocks s) u = []) -> updates_logged (trace h s) ->
    (forall l q, updates_of (blocks s) t = l ++ [q] -> exists y, q.2 = VMap y /\ lists y (meta_of s t)) ->
    forall l q, updates_of (blocks (run h s)) t = l ++ [q] -> exists y, q.2 = VMap y /\ lists y (meta_of (run h s) t)).
  { clear. intros h. induction h as [|[e o] h IH]; intros s W H U X; [exact X|]. cbn [run trace] in *.
    destruct (step e o s) as [s' an] eqn:S. cbn [fst].
    assert (W' : wf s') by (pose proof (step_wf e o s W) as Y; rewrite S in Y; exact Y).
    assert (H' : forall u, last_id s' <= u -> updates_of (blocks s') u = []).
    { intros u Y. pose proof (unminted_told_step e o s u W H) as V. rewrite S in V. apply V, Y. }
    apply IH; [exact W'|exact H'|intros ev t' kvs m Y; apply (U ev t' kvs m); right; exact Y|].
    intros l q E. destruct (decide (t < last_id s)) as [T|T].
    - pose proof (step_chain e o s t W T) as C. rewrite S in C. cbn [fst snd] in C. destruct C as (_ & l' & B & C).
      { intros t' kvs m ->. apply (U (mkEv s e (OUpdateMeta t' kvs) an s') t' kvs m); [left|reflexivity]. }
      destruct l' as [|l' q' _] using rev_ind.
      + rewrite app_nil_r in B. rewrite B in E. destruct (X l q E) as (y & Y1 & Y2). exists y. split; [exact Y1|].
        apply (lists_ext y (meta_of s t)); [exact C|exact Y2].
      + rewrite B, app_assoc in E. apply app_inj_tail in E as [_ ->]. destruct q as [p n]. cbn. apply (chained_last _ _ _ _ _ C).
    - exfalso. assert (D : (forall t' kvs, o <> OUpdateMeta t' kvs) \/ exists t' kvs, o = OUpdateMeta t' kvs).
      { destruct o; try (left; discriminate). right. eauto. }
      destruct D as [D|(t' & kvs & ->)].
      + pose proof (step_leaves e o s D) as (_ & _ & new & B & F). rewrite S in B. cbn [fst] in B.
        rewrite B, updates_app, (updates_none new t F), (H t) in E by lia. destruct l; discriminate.
      + destruct (step_update _ _ _ _ _ _ W S) as [(-> & _)|(_ & _ & [tok K] & m & c & R & [(msg & -> & ->)|(i & _ & ->)])].
        * rewrite (H t) in E by lia. destruct l; discriminate.
        * rewrite (H' t) in E by (cbn; lia). destruct l; discriminate.
        * rewrite (H' t) in E by (cbn; lia). destruct l; discriminate. }
  apply last_Some in L as [l L].
  refine (Z h s0 (init_wf _ _ _ _ I) _ U _ l (p, n) L).
  - intros u _. apply init_inv in I as (_ & _ & _ & _ & ->). reflexivity.
  - intros l' q E. apply init_inv in I as (_ & _ & _ & _ & ->). destruct l'; discriminate.
Qed.
Print Assumptions C163_last_partial.

(** Not in general.  The metadata a token was minted with are not in the log: two ledgers with the same blocks and different
    metadata. *)
Theorem C163_minted_refuted :
  ~ (forall s s' t k, reachable s -> reachable s' -> blocks s = blocks s' -> meta_of s t k = meta_of s' t k).
Proof.
  intros H.
  specialize (H (run [(from_ admin 0, OMint [mkMint (acct alice) None [("a"%string, VNat 1)]])] demo0)
                (run [(from_ admin 0, OMint [mkMint (acct alice) None [("a"%string, VNat 2)]])] demo0) 1 "a"%string
                (demo_reachable _) (demo_reachable _)).
  assert (X : blocks (run [(from_ admin 0, OMint [mkMint (acct alice) None [("a"%string, VNat 1)]])] demo0) =
              blocks (run [(from_ admin 0, OMint [mkMint (acct alice) None [("a"%string, VNat 2)]])] demo0)) by (vm_compute; reflexivity).
  apply H in X. vm_compute in X. discriminate X.
Qed.
Print Assumptions C163_minted_refuted.

(** And an update that the log refused has changed the metadata although no block tells it. *)
Theorem C163_unlogged_refuted :
  ~ (forall s e o t k, reachable s -> is_Some (tokens s !! t) -> blocks (fst (step e o s)) = blocks s ->
       meta_of (fst (step e o s)) t k = meta_of s t k).
Proof.
  intros H.
  specialize (H demo1 (with_log no_log (from_ admin 5)) (OUpdateMeta 1 [("z"%string, VNat 9)]) 1 "z"%string (demo_reachable demo1_h)).
  assert (X : is_Some (tokens demo1 !! 1)) by (vm_compute; eauto).
  assert (Y : blocks (fst (step (with_log no_log (from_ admin 5)) (OUpdateMeta 1 [("z"%string, VNat 9)]) demo1)) = blocks demo1)
    by (vm_compute; reflexivity).
  specialize (H X Y). vm_compute in H. discriminate H.
Qed.
Print Assumptions C163_unlogged_refuted.

(** Two updates of token 1, a transfer in between, and one of token 2. *)
Definition updating : history :=
  [(from_ admin 1000000000, OUpdateMeta 1 [("z"%string, VNat 9); ("y"%string, VNat 8)]);
   (from_ alice 2000000000, OTransfer [xfer bob 1]);
   (from_ admin 3000000000, OUpdateMeta 2 [("q"%string, VNat 5)]);
   (from_ admin 4000000000, OUpdateMeta 1 [("w"%string, VText "new")])].
Example C163_example :
  is_Some (tokens demo1 !! 1) /\ updates_logged (trace updating demo1) /\
  updates_of (blocks (run updating demo1)) 1 =
    [(VMap [("a"%string, VNat 1)], VMap [("y"%string, VNat 8); ("z"%string, VNat 9)]);
     (VMap [("y"%string, VNat 8); ("z"%string, VNat 9)], VMap [("w"%string, VText "new")])] /\
  icrc7_token_metadata (run updating demo1) [1] = Some [Some [("w"%string, VText "new")]].
Proof.
  split; [vm_compute; eauto|]. split.
  - assert (A : map ev_ans (trace updating demo1) = [ANat 1; ABatch [Ok 4]; ANat 2; ANat 1]) by (vm_compute; reflexivity).
    intros ev t kvs m H _ E. apply (elem_of_list_fmap_1 ev_ans) in H. change (ev_ans <$> trace updating demo1) with (map ev_ans (trace updating demo1)) in H.
    rewrite A, E in H. repeat (apply elem_of_cons in H as [H|H]; [discriminate H|]). apply elem_of_nil in H. exact H.
  - split; vm_compute; reflexivity.
Qed.
