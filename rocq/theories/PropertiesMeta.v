(** C42-C46: token metadata. *)
From Verif Require Import Base ModelPrincipal ModelState ModelIcrc7 ModelIcrc37 ModelManagement ModelLifecycle
  ModelQueries ModelStep ProofsItems ProofsManage ProofsMicro Spec ProofsCore ProofsLock ProofsMeta Scenario.

(** ** The metadata query shows the stored pairs of an existing token, each key once. *)
Theorem C42_query s ids ans i t :
  reachable s -> icrc7_token_metadata s ids = Some ans -> ids !! i = Some t ->
  (tokens s !! t = None /\ ans !! i = Some None) \/
  (is_Some (tokens s !! t) /\ exists x, ans !! i = Some (Some x) /\ lists x (meta_of s t)).
Proof.
  intros Hr H Hi. unfold icrc7_token_metadata, batch_query in H. destruct (_ <? _); [discriminate|].
  injection H as <-. rewrite list_lookup_fmap, Hi. simpl. destruct (tokens s !! t) as [tok|] eqn:T; [right|left; auto].
  split; [eauto|]. simpl. eexists. split; [reflexivity|]. unfold token_metadata, meta_of.
  rewrite (wf_id s (reachable_wf s Hr) _ _ T). apply sorted_pairs_lists.
Qed.
Print Assumptions C42_query.

(** ** C42 *)

(** Always: the pairs of the own request, over what was stored under the id before. *)
Theorem C42_mint_overlay e l s s' first :
  step e (OMint l) s = (s', ANat first) ->
  forall i r k, l !! i = Some r ->
    meta_of s' (first + N.of_nat i) k =
    match last_value (mr_meta r) k with Some v => Some v | None => meta_of s (first + N.of_nat i) k end.
Proof.
  intros S i r k Hi. destruct (step_mint _ _ _ _ _ S) as (-> & _ & _ & _ & _ & _ & m & idxs & n & M & Hl & ->).
  unfold meta_of. simpl. apply mint_metadata_spec in M. destruct M as [_ M]. apply M. exact Hi.
Qed.
Print Assumptions C42_mint_overlay.

(** Exactly the pairs of the own request, if no earlier mint was refused by the log.
    Missing: histories where a mint failed half-way. *)
Theorem C42_mint_metadata_partial caller url_ok a s0 h e l s' first :
  init caller url_ok a = Some s0 -> mints_logged (trace h s0) ->
  step e (OMint l) (run h s0) = (s', ANat first) ->
  forall i r k, l !! i = Some r -> meta_of s' (first + N.of_nat i) k = last_value (mr_meta r) k.
Proof.
  intros Hi ML S i r k Hl. rewrite (C42_mint_overlay _ _ _ _ _ S _ _ _ Hl).
  destruct (step_mint _ _ _ _ _ S) as (-> & _).
  assert (L : meta_lt (run h s0)).
  { apply meta_lt_trace; [eapply init_wf; eauto| |exact ML]. intros t Ht.
    apply init_inv in Hi. destruct Hi as (_ & _ & _ & _ & ->). simpl in Ht. rewrite lookup_empty in Ht. destruct Ht; discriminate. }
  destruct (last_value (mr_meta r) k); [reflexivity|]. unfold meta_of.
  destruct (metas (run h s0) !! (last_id (run h s0) + N.of_nat i)) as [x|] eqn:E; [|apply lookup_empty].
  assert (is_Some (metas (run h s0) !! (last_id (run h s0) + N.of_nat i))) as X by eauto. apply L in X. lia.
Qed.
Print Assumptions C42_mint_metadata_partial.

(** A mint with the log refusing every block. *)
Definition no_log : N -> tx -> logans := fun _ _ => LErr "log full".
Definition refused_mint : env * op :=
  (with_log no_log (from_ admin 0), OMint [mkMint (acct bob) None [("leak"%string, VNat 1)]]).

(** Refuted in general: alice's token shows the metadata of bob's refused request. *)
Theorem C42_mint_metadata_refuted :
  exists s e l s' first r k, reachable s /\ step e (OMint l) s = (s', ANat first) /\ l !! 0%nat = Some r /\
    meta_of s' first k = Some (VNat 1) /\ last_value (mr_meta r) k = None.
Proof.
  exists (run [refused_mint] demo0), (from_ admin 5), [mkMint (acct alice) None []].
  exists (fst (step (from_ admin 5) (OMint [mkMint (acct alice) None []]) (run [refused_mint] demo0))), 1.
  exists (mkMint (acct alice) None []), "leak"%string.
  split; [apply demo_reachable|]. split; [refine (snd_pair _ _ _); vm_compute; reflexivity|].
  splits; vm_compute; reflexivity.
Qed.
Print Assumptions C42_mint_metadata_refuted.

Example C42_example :
  mints_logged (trace [] demo0) /\
  let l := [mkMint (acct alice) None [("b"%string, VNat 1); ("a"%string, VText "x"); ("b"%string, VNat 2)]; mkMint (acct bob) None []] in
  let s' := fst (step (from_ admin 0) (OMint l) demo0) in
  snd (step (from_ admin 0) (OMint l) demo0) = ANat 1 /\
  icrc7_token_metadata s' [1; 2; 3] = Some [Some [("a"%string, VText "x"); ("b"%string, VNat 2)]; Some []; None].
Proof.
  split; [intros ev l m H; apply elem_of_nil in H; destruct H|]. splits; vm_compute; reflexivity.
Qed.

(** When does a mint panic?  On a value or an id that cannot be stored. *)
Theorem C42_metadata_storable tid kvs m :
  is_Some (add_metadata tid kvs m) <-> kvs = [] \/ (tid < 2 ^ 64 /\ forall kv, kv ∈ kvs -> encodable (snd kv) = true).
Proof. apply add_metadata_iff. Qed.
Print Assumptions C42_metadata_storable.

Example C42_storable_example :
  encodable (VArray [VNat 5; VMap [("k"%string, VInt (-3))]]) = true /\ encodable (VArray [VNat (2 ^ 64)]) = false /\
  snd (step (from_ admin 0) (OMint [mkMint (acct bob) None [("k"%string, VNat (2 ^ 64))]]) demo0) = ATrap.
Proof. splits; vm_compute; reflexivity. Qed.

(** ** C43 *)
Theorem C43_update_replaces e t kvs s s' n :
  reachable s -> step e (OUpdateMeta t kvs) s = (s', ANat n) ->
  n = t /\ is_Some (tokens s !! t) /\
  (forall k, meta_of s' t k = last_value kvs k) /\
  (forall t' k, t' <> t -> meta_of s' t' k = meta_of s t' k) /\
  (tokens s' = tokens s /\ by_owner s' = by_owner s /\ last_id s' = last_id s /\ tok_appr s' = tok_appr s /\
   col_appr s' = col_appr s /\ cfg s' = cfg s /\ perms s' = perms s /\ files s' = files s /\ redirs s' = redirs s) /\
  exists i before after,
    log s' = log s ++ [(i, mkTx "7update_token" (e_now e) (Some t) (Some (mkAcc (e_caller e) None)) None None None
       (Some (VMap [("icrc7:new_metadata"%string, VMap after); ("icrc7:previous_metadata"%string, VMap before)]))
       None (Some (e_now e)))] /\
    lists before (meta_of s t) /\ lists after (meta_of s' t).
Proof.
  intros Hr S. pose proof (reachable_wf s Hr) as W.
  destruct (step_update _ _ _ _ _ _ W S) as [(_ & X & _)|(P & G & T & m & k & R & [(msg & Y & _)|(i & Y & ->)])];
    [destruct (X _ eq_refl)|discriminate|]. injection Y as ->.
  pose proof (replace_metadata_spec _ _ _ _ R) as [R1 R2]. splits; try reflexivity; try assumption.
  - intros t' k' Hne. unfold meta_of. simpl. rewrite R1 by exact Hne. reflexivity.
  - exists i, (sorted_pairs (default ∅ (metas s !! t))), (sorted_pairs (default ∅ (m !! t))).
    split; [reflexivity|]. split; apply sorted_pairs_lists.
Qed.
Print Assumptions C43_update_replaces.

Example C43_example :
  let o := OUpdateMeta 1 [("z"%string, VNat 9)] in
  snd (step (from_ admin 5) o demo1) = ANat 1 /\
  let s' := fst (step (from_ admin 5) o demo1) in
  icrc7_token_metadata demo1 [1] = Some [Some [("a"%string, VNat 1)]] /\
  icrc7_token_metadata s' [1; 2] = Some [Some [("z"%string, VNat 9)]; Some []] /\
  tx_meta <$> (last (blocks s')) = Some (Some (VMap [("icrc7:new_metadata"%string, VMap [("z"%string, VNat 9)]);
     ("icrc7:previous_metadata"%string, VMap [("a"%string, VNat 1)])])).
Proof. splits; vm_compute; reflexivity. Qed.

(** ** C44 *)
Theorem C44_failed_update_refuted :
  exists s e t kvs s' msg k, reachable s /\ step e (OUpdateMeta t kvs) s = (s', AErr (EStorageCanisterError msg)) /\
    meta_of s t k = None /\ meta_of s' t k = Some (VNat 9).
Proof.
  exists demo1, (with_log no_log (from_ admin 5)), 1, [("z"%string, VNat 9)].
  exists (fst (step (with_log no_log (from_ admin 5)) (OUpdateMeta 1 [("z"%string, VNat 9)]) demo1)).
  eexists. exists "z"%string.
  split; [apply (demo_reachable demo1_h)|]. split; [refine (snd_pair _ _ _); vm_compute; reflexivity|].
  splits; vm_compute; reflexivity.
Qed.
Print Assumptions C44_failed_update_refuted.

(** An update that answers any other error (or traps, or is rejected) changes nothing; one refused by the log leaves the
    owners and the other tokens' metadata, but replaces the metadata of [t].  Missing: the metadata of [t] itself. *)
Theorem C44_failed_update_partial e t kvs s s' an :
  reachable s -> step e (OUpdateMeta t kvs) s = (s', an) -> (forall k, an <> ANat k) ->
  (forall t' k, t' <> t -> meta_of s' t' k = meta_of s t' k) /\
  (tokens s' = tokens s /\ by_owner s' = by_owner s /\ last_id s' = last_id s /\ tok_appr s' = tok_appr s /\
   col_appr s' = col_appr s /\ cfg s' = cfg s /\ perms s' = perms s /\ log s' = log s) /\
  ((forall m, an <> AErr (EStorageCanisterError m)) -> s' = s) /\
  ((exists m, an = AErr (EStorageCanisterError m)) -> forall k, meta_of s' t k = last_value kvs k).
Proof.
  intros Hr S A. pose proof (reachable_wf s Hr) as W.
  destruct (step_update _ _ _ _ _ _ W S) as [(-> & X & Y)|(P & G & T & m & k & R & [(msg & -> & ->)|(i & Y & _)])].
  - splits; auto. intros [m Z]. destruct (Y m Z).
  - pose proof (replace_metadata_spec _ _ _ _ R) as [R1 R2]. splits; try reflexivity.
    + intros t' k' Hne. unfold meta_of. simpl. rewrite R1 by exact Hne. reflexivity.
    + intros Z. destruct (Z _ eq_refl).
    + intros _. exact R2.
  - destruct (A _ Y).
Qed.
Print Assumptions C44_failed_update_partial.

Example C44_example :
  snd (step (from_ admin 5) (OUpdateMeta 7 [("z"%string, VNat 9)]) demo1) = AErr ETokenDoesNotExist /\
  snd (step (from_ admin 5) (OUpdateMeta 1 [("z"%string, VNat (2 ^ 64))]) demo1) = ATrap /\
  (exists m, snd (step (with_log no_log (from_ admin 5)) (OUpdateMeta 1 []) demo1) = AErr (EStorageCanisterError m)) /\
  meta_of demo1 1 "a" = Some (VNat 1) /\
  meta_of (fst (step (with_log no_log (from_ admin 5)) (OUpdateMeta 1 []) demo1)) 1 "a" = None.
Proof. splits; try (vm_compute; reflexivity). eexists. vm_compute. reflexivity. Qed.

(** ** C45 *)
Theorem C45_failed_mint_refuted :
  exists s e l s' msg, reachable s /\ step e (OMint l) s = (s', AErr (EStorageCanisterError msg)) /\
    length (blocks s') = S (length (blocks s)) /\ meta_of s (last_id s) "leak" = None /\
    meta_of s' (last_id s') "leak" = Some (VNat 1).
Proof.
  set (lg := fun (n : N) (_ : tx) => if n =? 0 then LOk 0 else LErr "log full").
  set (l := [mkMint (acct bob) None [("leak"%string, VNat 1)]; mkMint (acct bob) None []]).
  exists demo0, (with_log lg (from_ admin 5)), l, (fst (step (with_log lg (from_ admin 5)) (OMint l) demo0)).
  eexists. split; [apply (demo_reachable [])|]. split; [refine (snd_pair _ _ _); vm_compute; reflexivity|].
  splits; vm_compute; reflexivity.
Qed.
Print Assumptions C45_failed_mint_refuted.

(** What a failed mint leaves: owners, next id, metadata of all ids handed out, all else; only blocks of not existing
    tokens may be appended, and only if the log refused a later one.  Missing: log and metadata of future ids. *)
Theorem C45_failed_mint_partial e l s s' an :
  step e (OMint l) s = (s', an) -> (forall k, an <> ANat k) ->
  (tokens s' = tokens s /\ by_owner s' = by_owner s /\ last_id s' = last_id s /\ tok_appr s' = tok_appr s /\
   col_appr s' = col_appr s /\ cfg s' = cfg s /\ perms s' = perms s) /\
  (forall t k, t < last_id s -> meta_of s' t k = meta_of s t k) /\
  (exists new, log s' = log s ++ new /\ (length new < max 1 (length l))%nat /\
     forall b, b ∈ new -> tx_btype (snd b) = "7mint"%string /\ exists t, tx_tid (snd b) = Some t /\ last_id s <= t) /\
  ((forall m, an <> AErr (EStorageCanisterError m)) -> s' = s).
Proof.
  intros S A.
  assert (X : s' = s -> (tokens s' = tokens s /\ by_owner s' = by_owner s /\ last_id s' = last_id s /\ tok_appr s' = tok_appr s /\
   col_appr s' = col_appr s /\ cfg s' = cfg s /\ perms s' = perms s) /\
  (forall t k, t < last_id s -> meta_of s' t k = meta_of s t k) /\
  (exists new, log s' = log s ++ new /\ (length new < max 1 (length l))%nat /\
     forall b, b ∈ new -> tx_btype (snd b) = "7mint"%string /\ exists t, tx_tid (snd b) = Some t /\ last_id s <= t) /\
  ((forall m, an <> AErr (EStorageCanisterError m)) -> s' = s)).
  { intros ->. splits; auto. exists []. rewrite app_nil_r. split; [reflexivity|]. split; [simpl; lia|].
    intros b H. apply elem_of_nil in H. destruct H. }
  destruct an as [ |msg| |er| |k| ]; try (apply X; eapply step_mint_none; [exact S|discriminate|discriminate]); [|destruct (A _ eq_refl)].
  destruct (step_mint_err _ _ _ _ _ S) as [[-> _]|(msg & m & idxs & n & -> & Hl & M & _ & ->)]; [apply X; reflexivity|].
  clear X. apply mint_metadata_spec in M. destruct M as [M _]. splits; try reflexivity.
  - intros t k Ht. unfold meta_of. simpl. rewrite M by auto. reflexivity.
  - eexists. split; [reflexivity|]. split; [rewrite zip_with_length; lia|].
    intros [ix b] H. apply elem_of_zip_r in H. simpl. clear -H.
    assert (G : forall id, last_id s <= id -> b ∈ mint_txs (e_now e) id l ->
       tx_btype b = "7mint"%string /\ exists t, tx_tid b = Some t /\ last_id s <= t).
    { clear H. induction l as [|r l IH]; intros id Hid H; simpl in H; [apply elem_of_nil in H; destruct H|].
      apply elem_of_cons in H. destruct H as [->|H]; [simpl; eauto|]. eapply IH; [|exact H]. lia. }
    eapply G; [|exact H]. lia.
  - intros Z. destruct (Z _ eq_refl).
Qed.
Print Assumptions C45_failed_mint_partial.

Example C45_example :
  let lg := fun (n : N) (_ : tx) => if n <? 4 then LOk 0 else LErr "log full" in
  let l := [mkMint (acct bob) None [("leak"%string, VNat 1)]; mkMint (acct bob) None []] in
  (exists m, snd (step (with_log lg (from_ admin 5)) (OMint l) demo1) = AErr (EStorageCanisterError m)) /\
  let s' := fst (step (with_log lg (from_ admin 5)) (OMint l) demo1) in
  length (blocks s') = 4%nat /\ meta_of s' 1 "a" = Some (VNat 1) /\ meta_of s' 4 "leak" = Some (VNat 1) /\ total_supply s' = 3.
Proof. splits; try (vm_compute; reflexivity). eexists. vm_compute. reflexivity. Qed.

(** ** C46 *)
Theorem C46_metadata_changes h s0 ev t k :
  reachable s0 -> ev ∈ trace h s0 -> meta_of (ev_after ev) t k <> meta_of (ev_before ev) t k ->
  (exists l, ev_op ev = OMint l /\ holds (ev_before ev) (e_caller (ev_env ev)) PMinting /\
     last_id (ev_before ev) <= t < last_id (ev_before ev) + nlen l) \/
  (exists kvs, ev_op ev = OUpdateMeta t kvs /\ holds (ev_before ev) (e_caller (ev_env ev)) PUpdateMetadata /\
     is_Some (tokens (ev_before ev) !! t)).
Proof.
  intros Hr H. apply trace_step in H. destruct H as (S & h1 & h2 & _ & B).
  assert (W : wf (ev_before ev)) by (rewrite B; apply run_wf, reachable_wf, Hr). clear B Hr.
  destruct ev as [s e o an s']; simpl in *. intros Hne.
  destruct (decide (is_mint o)) as [D|D]; [|assert (D' : (exists t' kvs, o = OUpdateMeta t' kvs) \/ (forall t' kvs, o <> OUpdateMeta t' kvs))
    by (destruct o; eauto; right; discriminate); destruct D' as [(t' & kvs & ->)|D']].
  - left. destruct o; try contradiction. exists reqs. split; [reflexivity|].
    assert (Z : has_permission s (e_caller e) PMinting = true /\ exists m, mint_metadata (last_id s) reqs (metas s) = Some m /\ metas s' = m).
    { destruct an as [ |msg| |er| |n| ];
        try (exfalso; apply Hne; f_equal; eapply step_mint_none; [exact S|discriminate|discriminate]).
      - destruct (step_mint_err _ _ _ _ _ S) as [[-> _]|(msg & m & idxs & n & -> & Hl & M & P & ->)]; [congruence|].
        split; [exact P|]. exists m. auto.
      - destruct (step_mint _ _ _ _ _ S) as (_ & _ & P & _ & _ & _ & m & idxs & j & M & Hl & ->).
        split; [exact P|]. exists m. auto. }
    destruct Z as (P & m & M & E). split; [apply holds_iff; exact P|].
    apply mint_metadata_spec in M. destruct M as [M _]. unfold meta_of in Hne. rewrite E in Hne.
    destruct (decide (last_id s <= t < last_id s + nlen reqs)) as [|N0]; [assumption|].
    exfalso. apply Hne. rewrite M by lia. reflexivity.
  - right.
    destruct (step_update _ _ _ _ _ _ W S) as [(-> & _)|(P & G & T & m & j & R & X)]; [congruence|].
    assert (E : metas s' = m) by (destruct X as [(msg & _ & ->)|(i & _ & ->)]; reflexivity).
    apply replace_metadata_spec in R. destruct R as [R _]. unfold meta_of in Hne. rewrite E in Hne.
    destruct (decide (t = t')) as [<-|N0]; [|rewrite R in Hne by exact N0; congruence].
    exists kvs. split; [reflexivity|]. split; [apply holds_iff; exact P|exact T].
  - exfalso. apply Hne. unfold meta_of.
    assert (E : metas (fst (step e o s)) = metas s).
    { enough (wf (fst (step e o s)) /\ metas (fst (step e o s)) = metas s) by tauto.
      apply (step_inv (fun x => wf x /\ metas x = metas s)); [|auto]. intros a b [Wa Ea] M.
      split; [eapply wf_micro; eauto|]. rewrite <- Ea.
      destruct (micro_metas _ _ _ _ Wa M) as [E|[(l & -> & _)|(t' & kvs & -> & _)]]; [exact E|destruct (D I)|destruct (D' _ _ eq_refl)]. }
    rewrite S in E. simpl in E. rewrite E. reflexivity.
Qed.
Print Assumptions C46_metadata_changes.

(** Transfers, approvals, burns and everything else keep every pair. *)
Example C46_example :
  let h := [(from_ alice 1000000000, OTransfer [xfer bob 1]); (from_ bob 3000000000, OBurn 1); (from_ alice 5, OUpdateMeta 2 [("q"%string, VNat 1)]);
            (from_ admin 6, OUpdateMeta 2 [("q"%string, VNat 1)])] in
  map ev_ans (trace h demo1) = [ABatch [Ok 3]; AOk; AReject "Caller does not have update metadata permission"; ANat 2] /\
  map (fun ev => (meta_of (ev_after ev) 1 "a", meta_of (ev_after ev) 2 "q")) (trace h demo1) =
    [(Some (VNat 1), None); (Some (VNat 1), None); (Some (VNat 1), None); (Some (VNat 1), Some (VNat 1))].
Proof. splits; vm_compute; reflexivity. Qed.
