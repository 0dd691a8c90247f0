(** C175: what an account holds is what came in less what went out. *)
From Verif Require Import Base ModelPrincipal ModelState ModelIcrc7 ModelIcrc37 ModelManagement ModelLifecycle
  ModelQueries ModelStep ProofsItems ProofsManage ProofsMicro ProofsCore ProofsQueries ProofsBalance ProofsOwner Spec Scenario
  PropertiesLedger PropertiesUploadLive PropertiesSum.
Local Open Scope N_scope.

(** A party of a block is the account; a block that brings the account a token, a block that takes one away. *)
Definition names (who : option account) (a : account) : Prop := akey <$> who = Some (akey a).
(** See [names]. *)
Definition moves_in (a : account) (t : tx) : Prop :=
  (tx_btype t = "7mint" \/ tx_btype t = "7xfer" \/ tx_btype t = "37xfer")%string /\ names (tx_to t) a.
(** See [moves_in]. *)
Definition moves_out (a : account) (t : tx) : Prop :=
  (tx_btype t = "7burn" \/ tx_btype t = "7xfer" \/ tx_btype t = "37xfer")%string /\ names (tx_from t) a.
Global Instance names_dec who a : Decision (names who a).
Proof. unfold names. apply _. Defined.
Global Instance moves_in_dec a t : Decision (moves_in a t).
Proof. unfold moves_in. apply _. Defined.
Global Instance moves_out_dec a t : Decision (moves_out a t).
Proof. unfold moves_out. apply _. Defined.

(** The number of such blocks, and the number of tokens of the account. *)
Definition came (a : account) (l : list tx) : N := nlen (filter (moves_in a) l).
(** See [came]. *)
Definition went (a : account) (l : list tx) : N := nlen (filter (moves_out a) l).
(** See [came]. *)
Definition holding (a : account) (m : gmap N account) : N := N.of_nat (size (filter (fun kv : N * account => akey (snd kv) = akey a) m)).

(** One for what is true. *)
Definition one (P : Prop) `{Decision P} : N := if bool_decide P then 1 else 0.

Lemma holding_insert a m i o : m !! i = None -> holding a (<[i := o]> m) = holding a m + one (akey o = akey a).
Proof.
  intros N. unfold holding, one. case_bool_decide as E.
  - rewrite map_filter_insert_True by exact E. rewrite map_size_insert_None; [lia|]. apply map_filter_lookup_None. left. exact N.
  - rewrite map_filter_insert_False by exact E. rewrite delete_notin by exact N. lia.
Qed.
Lemma holding_delete a m i o : m !! i = Some o -> holding a m = holding a (delete i m) + one (akey o = akey a).
Proof.
  intros S. rewrite <- (insert_delete m i o S) at 1. apply holding_insert. apply lookup_delete.
Qed.
Lemma came_snoc a l t : came a (l ++ [t]) = came a l + one (moves_in a t).
Proof. unfold came, nlen, one. rewrite filter_app, app_length. rewrite filter_cons, filter_nil. case_bool_decide; case_decide; try contradiction; simpl; lia. Qed.
Lemma went_snoc a l t : went a (l ++ [t]) = went a l + one (moves_out a t).
Proof. unfold went, nlen, one. rewrite filter_app, app_length. rewrite filter_cons, filter_nil. case_bool_decide; case_decide; try contradiction; simpl; lia. Qed.
Lemma one_iff (P Q : Prop) `{Decision P} `{Decision Q} : (P <-> Q) -> one P = one Q.
Proof. unfold one. intros E. repeat case_bool_decide; tauto. Qed.
Lemma one_false (P : Prop) `{Decision P} : ~ P -> one P = 0.
Proof. unfold one. intros E. case_bool_decide; tauto. Qed.
Lemma names_some o a : names (Some o) a <-> akey o = akey a.
Proof. unfold names. simpl. split; congruence. Qed.

(** Books that are consistent balance. *)
Lemma replay_balances a l m : replay l = Some m -> holding a m + went a l = came a l.
Proof.
  revert m. induction l as [|t l IH] using rev_ind; intros m H.
  - injection H as <-. reflexivity.
  - unfold replay in H. rewrite fold_left_app in H. simpl in H. fold (replay l) in H.
    destruct (replay l) as [m0|]; [|discriminate H]. specialize (IH m0 eq_refl).
    rewrite came_snoc, went_snoc. unfold replay_block in H.
    case_bool_decide as B1.
    { destruct (tx_tid t) as [i|]; [|discriminate]. destruct (tx_to t) as [o|] eqn:To; [|discriminate].
      destruct (m0 !! i) eqn:L; [discriminate|]. injection H as <-. rewrite holding_insert by exact L.
      rewrite (one_false (moves_out a t)) by (unfold moves_out; rewrite B1; intros [[X|[X|X]] _]; discriminate X).
      rewrite (one_iff (moves_in a t) (akey o = akey a)) by (unfold moves_in; rewrite To, names_some; tauto). lia. }
    destruct (bool_decide (tx_btype t = "7xfer"%string) || bool_decide (tx_btype t = "37xfer"%string)) eqn:B2.
    { apply orb_true_iff in B2. rewrite !bool_decide_eq_true in B2.
      destruct (tx_tid t) as [i|]; [|discriminate]. destruct (tx_from t) as [f|] eqn:Fr; [|discriminate].
      destruct (tx_to t) as [o|] eqn:To; [|discriminate]. destruct (m0 !! i) as [w|] eqn:L; [|discriminate].
      case_bool_decide as E; [|discriminate]. injection H as <-.
      rewrite <- insert_delete_insert, holding_insert by apply lookup_delete.
      rewrite (holding_delete a m0 i w L) in IH.
      rewrite (one_iff (moves_in a t) (akey o = akey a)) by (unfold moves_in; rewrite To, names_some; tauto).
      rewrite (one_iff (moves_out a t) (akey w = akey a)) by (unfold moves_out; rewrite Fr, names_some, E; tauto). lia. }
    apply orb_false_iff in B2. rewrite !bool_decide_eq_false in B2. destruct B2 as [B2 B3].
    rewrite (one_false (moves_in a t)) by (unfold moves_in; tauto).
    case_bool_decide as B4.
    { destruct (tx_tid t) as [i|]; [|discriminate]. destruct (tx_from t) as [f|] eqn:Fr; [|discriminate].
      destruct (m0 !! i) as [w|] eqn:L; [|discriminate]. case_bool_decide as E; [|discriminate]. injection H as <-.
      rewrite (holding_delete a m0 i w L) in IH.
      rewrite (one_iff (moves_out a t) (akey w = akey a)) by (unfold moves_out; rewrite Fr, names_some, E; tauto). lia. }
    injection H as <-. rewrite (one_false (moves_out a t)) by (unfold moves_out; tauto). lia.
Qed.

Lemma holding_ids s a : holding a (owners s) = nlen (tokens_ids_of_account s a).
Proof.
  destruct (account_ids_spec s a) as [ND M]. unfold holding, nlen. f_equal.
  unfold size, map_size. rewrite <- (map_length fst). apply Permutation_length. apply NoDup_Permutation; [apply NoDup_fst_map_to_list|exact ND|].
  intros i. rewrite M, elem_of_list_fmap. split.
  - intros ([j o] & -> & H). apply elem_of_map_to_list, map_filter_lookup_Some in H. destruct H as [H K].
    exists o. rewrite <- owners_lookup. auto.
  - intros (o & H & K). exists (i, o). split; [reflexivity|]. apply elem_of_map_to_list, map_filter_lookup_Some.
    rewrite owners_lookup. auto.
Qed.

(** ** C175 *)

(** A mint that fails half-way leaves blocks of tokens that do not exist (C11). *)
Theorem C175_books_refuted :
  exists s, reachable s /\ holding (acct alice) (owners s) = 0 /\ went (acct alice) (blocks s) = 0 /\
    came (acct alice) (blocks s) = 1.
Proof.
  pose (e := with_log (fun k _ => if k =? 0 then LOk 0 else LErr "full") (from_ admin 0)).
  exists (run [(e, OMint [mkMint (acct alice) None []; mkMint (acct bob) None []])] demo0).
  split; [apply demo_reachable|]. splits; vm_compute; reflexivity.
Qed.
Print Assumptions C175_books_refuted.

(** Without that the books balance.  Missing: collections in which a mint of several tokens was cut off by the log. *)
Theorem C175_books_partial caller url_ok a s0 h who :
  init caller url_ok a = Some s0 ->
  (forall ev l m, ev ∈ trace h s0 -> ev_op ev = OMint l -> ev_ans ev = AErr (EStorageCanisterError m) ->
     (length l <= 1)%nat) ->
  holding who (owners (run h s0)) + went who (blocks (run h s0)) = came who (blocks (run h s0)).
Proof. intros I H. apply replay_balances. eapply C11_log_replay_partial; eauto. Qed.
Print Assumptions C175_books_partial.

(** The same between any two moments, with the blocks written in between. *)
Theorem C175_between_partial caller url_ok a s0 h h' who new :
  init caller url_ok a = Some s0 ->
  (forall ev l m, ev ∈ trace (h ++ h') s0 -> ev_op ev = OMint l -> ev_ans ev = AErr (EStorageCanisterError m) ->
     (length l <= 1)%nat) ->
  blocks (run (h ++ h') s0) = blocks (run h s0) ++ new ->
  holding who (owners (run (h ++ h') s0)) + went who new = holding who (owners (run h s0)) + came who new.
Proof.
  intros I H E. pose proof (C175_books_partial caller url_ok a s0 (h ++ h') who I H) as X.
  assert (H' : forall ev l m, ev ∈ trace h s0 -> ev_op ev = OMint l -> ev_ans ev = AErr (EStorageCanisterError m) ->
     (length l <= 1)%nat).
  { intros ev l m T. apply H. rewrite trace_app. apply elem_of_app. left. exact T. }
  pose proof (C175_books_partial caller url_ok a s0 h who I H') as Y. rewrite E in X.
  unfold came, went, nlen in *. rewrite !filter_app, !app_length in X. lia.
Qed.
Print Assumptions C175_between_partial.

(** The balance that is reported counts the tokens the account burned as well (C31). *)
Theorem C175_reported_refuted :
  exists s, reachable s /\ tokens_balance_of s (acct alice) = 2 /\ came (acct alice) (blocks s) = 2 /\
    went (acct alice) (blocks s) = 1.
Proof.
  exists (run (demo1_h ++ [(from_ alice 1000000000, OBurn 1)]) demo0). split; [apply demo_reachable|].
  splits; vm_compute; reflexivity.
Qed.
Print Assumptions C175_reported_refuted.

(** Missing: as above, and accounts that burned tokens. *)
Theorem C175_reported_partial caller url_ok a s0 h who :
  init caller url_ok a = Some s0 ->
  (forall ev l m, ev ∈ trace h s0 -> ev_op ev = OMint l -> ev_ans ev = AErr (EStorageCanisterError m) ->
     (length l <= 1)%nat) ->
  let s := run h s0 in
  let burned := filter (fun x => akey (snd x) = akey who) (all_burned_from (trace h s0)) in
  tokens_balance_of s who + went who (blocks s) = came who (blocks s) + nlen burned /\
  (burned = [] -> tokens_balance_of s who + went who (blocks s) = came who (blocks s)).
Proof.
  intros I H s burned.
  assert (X : tokens_balance_of s who + went who (blocks s) = came who (blocks s) + nlen burned).
  { pose proof (bal_trace [] h s0 (init_wf _ _ _ _ I) (bal_init _ _ _ _ I)) as B. simpl in B.
    fold s in B. rewrite (bal_count _ _ who B). fold burned. rewrite <- holding_ids.
    pose proof (C175_books_partial caller url_ok a s0 h who I H) as Y. fold s in Y |- *. lia. }
  split; [exact X|]. intros E. rewrite X, E. unfold nlen. simpl. lia.
Qed.
Print Assumptions C175_reported_partial.

(** alice was given tokens 1 and 2 and gave away 1; bob had 3, received 1 and burned 3. *)
Example C175_example :
  let h := demo1_h ++ [(from_ alice 1000000000, OTransfer [xfer bob 1]); (from_ bob 2000000000, OBurn 3)] in
  let s := run h demo0 in
  init admin (fun _ => true) demo_args = Some demo0 /\
  (forall ev l m, ev ∈ trace h demo0 -> ev_op ev = OMint l -> ev_ans ev = AErr (EStorageCanisterError m) ->
     (length l <= 1)%nat) /\
  (came (acct alice) (blocks s), went (acct alice) (blocks s), holding (acct alice) (owners s)) = (2, 1, 1) /\
  (came (acct bob) (blocks s), went (acct bob) (blocks s), holding (acct bob) (owners s)) = (2, 1, 1) /\
  tokens_balance_of s (acct alice) = 1 /\ tokens_balance_of s (acct bob) = 2.
Proof.
  split; [apply demo0_init|]. split; [|splits; vm_compute; reflexivity].
  intros ev l m T O A. exfalso. revert ev T O A.
  match goal with |- context [trace ?h demo0] =>
    assert (F : Forall (fun x => match x with AErr (EStorageCanisterError _) => False | _ => True end) (map ev_ans (trace h demo0)))
      by (vm_compute; repeat constructor) end.
  rewrite Forall_forall in F. intros ev T O A. specialize (F (ev_ans ev)). rewrite A in F. apply F.
  apply elem_of_list_fmap. eauto.
Qed.
