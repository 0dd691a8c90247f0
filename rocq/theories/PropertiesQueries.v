(** C29-C32: queries. *)
From Verif Require Import Base ModelPrincipal ModelState ModelIcrc7 ModelIcrc37 ModelManagement ModelLifecycle
  ModelQueries ModelStep ProofsItems ProofsManage ProofsMicro Spec ProofsCore ProofsOwner ProofsApprovals ProofsQueries
  ProofsBalance Scenario.

(** A page request within the configured limit. *)
Definition allowed (s : state) (tk : option N) : Prop :=
  match tk with Some n => n <= match c_max_take (cfg s) with Some m => m | None => 100 end | None => True end.

Lemma take_ok_iff s tk : take_ok s tk = true <-> allowed s tk.
Proof.
  unfold take_ok, allowed, default_max_take. destruct tk as [n|]; [|tauto].
  rewrite negb_true_iff, N.ltb_ge. destruct (c_max_take (cfg s)); reflexivity.
Qed.

(** ** C29 *)
Theorem C29_paging_tokens s tk fuel :
  reachable s -> allowed s tk -> 1 <= asked s tk -> (size (tokens s) < fuel)%nat ->
  exists l, walk (fun _ prev => icrc7_tokens s prev tk) (fun x => x) fuel None = Some l /\
    StronglySorted N.lt l /\ (forall t, t ∈ l <-> is_Some (owner_of s t)) /\ nlen l = total_supply s.
Proof.
  intros Hr Ha Hk Hf. apply take_ok_iff in Ha. destruct (token_ids_spec s) as [ND M].
  exists (merge_sort N.le (map fst (map_to_list (tokens s)))). split; [|split; [|split]].
  - unfold icrc7_tokens. rewrite Ha. apply walk_ids; [exact ND| |apply page_size_pos; exact Hk|rewrite map_length; exact Hf].
    apply Forall_forall. intros x Hx. apply M in Hx. destruct Hx as [o Hx]. rewrite owner_of_tokens in Hx.
    destruct (tokens s !! x) eqn:E; [|discriminate]. apply (wf_lt _ (reachable_wf _ Hr) _ _ E).
  - apply sorted_lt. exact ND.
  - intros t. rewrite merge_sort_Permutation. apply M.
  - unfold nlen, total_supply. rewrite merge_sort_Permutation, map_length. reflexivity.
Qed.
Print Assumptions C29_paging_tokens.

(** Size of a page; refusal of oversized requests. *)
Theorem C29_page_size s prev tk :
  (icrc7_tokens s prev tk = None <-> ~ allowed s tk) /\
  (forall l, icrc7_tokens s prev tk = Some l -> 1 <= asked s tk -> nlen l <= asked s tk).
Proof.
  unfold icrc7_tokens. split.
  - destruct (take_ok s tk) eqn:E; pose proof (take_ok_iff s tk) as I; rewrite E in I; split; try discriminate; try tauto.
    intros _ X. apply I in X. discriminate.
  - intros l. destruct (take_ok s tk); [|discriminate]. intros [= <-] H.
    pose proof (page_of_length (map fst (map_to_list (tokens s))) prev (page_size s tk)).
    pose proof (page_size_pos s tk H). unfold nlen. lia.
Qed.
Print Assumptions C29_page_size.

Example C29_example :
  reachable demo2 /\ allowed demo2 (Some 2) /\ 1 <= asked demo2 (Some 2) /\ (size (tokens demo2) < 4)%nat /\
  icrc7_tokens demo2 None (Some 2) = Some [1; 2] /\ icrc7_tokens demo2 (Some 2) (Some 2) = Some [3] /\
  icrc7_tokens demo2 (Some 3) (Some 2) = Some [] /\ icrc7_tokens demo2 None (Some 101) = None.
Proof.
  split; [apply demo_reachable|]. split; [vm_compute; discriminate|]. split; [vm_compute; discriminate|].
  split; [vm_compute; lia|]. splits; vm_compute; reflexivity.
Qed.

(** A configured default page size of 0 stops paging at once: the condition [1 <= asked] is needed. *)
Theorem C29_zero_page_refuted :
  exists s, reachable s /\ total_supply s = 3 /\ allowed s None /\
    walk (fun _ prev => icrc7_tokens s prev None) (fun x => x) 10 None = Some [].
Proof.
  exists (run (demo1_h ++ [(from_ admin 1, OUpdateCollection
     (mkCU None None None None None None None None (Some 0) None None None None None None))]) demo0).
  split; [apply demo_reachable|]. split; [vm_compute; reflexivity|]. split; [exact I|]. vm_compute. reflexivity.
Qed.
Print Assumptions C29_zero_page_refuted.

(** ** C30 *)

(** Missing: a page size of 0. *)
Theorem C30_tokens_of_partial s a tk fuel :
  reachable s -> allowed s tk -> 1 <= asked s tk -> (size (tokens s) < fuel)%nat ->
  exists l, walk (fun _ prev => icrc7_tokens_of s a prev tk) (fun x => x) fuel None = Some l /\
    StronglySorted N.lt l /\ (forall t, t ∈ l <-> exists o, owner_of s t = Some o /\ akey o = akey a).
Proof.
  intros Hr Ha Hk Hf. apply take_ok_iff in Ha. destruct (account_ids_spec s a) as [ND M].
  exists (merge_sort N.le (tokens_ids_of_account s a)). split; [|split].
  - unfold icrc7_tokens_of. rewrite Ha. apply walk_ids; [exact ND| |apply page_size_pos; exact Hk|].
    + apply Forall_forall. intros x Hx. apply M in Hx. destruct Hx as (o & Hx & _). rewrite owner_of_tokens in Hx.
      destruct (tokens s !! x) eqn:E; [|discriminate]. apply (wf_lt _ (reachable_wf _ Hr) _ _ E).
    + unfold tokens_ids_of_account. rewrite map_length.
      eapply Nat.le_lt_trans; [apply filter_length|]. exact Hf.
  - apply sorted_lt. exact ND.
  - intros t. rewrite merge_sort_Permutation. apply M.
Qed.
Print Assumptions C30_tokens_of_partial.

(** With a configured default page size of 0 no token of alice is ever listed. *)
Theorem C30_zero_page_refuted :
  exists s, reachable s /\ owner_of s 1 = Some (acct alice) /\ allowed s None /\
    walk (fun _ prev => icrc7_tokens_of s (acct alice) prev None) (fun x => x) 10 None = Some [].
Proof.
  exists (run (demo1_h ++ [(from_ admin 1, OUpdateCollection
     (mkCU None None None None None None None None (Some 0) None None None None None None))]) demo0).
  split; [apply demo_reachable|]. split; [vm_compute; reflexivity|]. split; [exact I|]. vm_compute. reflexivity.
Qed.
Print Assumptions C30_zero_page_refuted.

(** The account is compared up to the default subaccount. *)
Example C30_example :
  reachable demo2 /\ allowed demo2 None /\ 1 <= asked demo2 None /\ (size (tokens demo2) < 4)%nat /\
  icrc7_tokens_of demo2 (mkAcc alice (Some (repeat 0 32%nat))) None None = Some [1; 2] /\
  icrc7_tokens_of demo2 (acct bob) None None = Some [3] /\
  icrc7_tokens_of demo2 (mkAcc bob (Some (repeat 1 32%nat))) None None = Some [].
Proof.
  split; [apply demo_reachable|]. split; [exact I|]. split; [vm_compute; discriminate|].
  split; [vm_compute; lia|]. splits; vm_compute; reflexivity.
Qed.

(** ** C31 *)

(** Refuted: alice burns token 1; the balance stays 2, one token is listed. *)
Theorem C31_balance_refuted :
  exists s, reachable s /\ icrc7_balance_of s [acct alice] = Some [2] /\
    walk (fun _ prev => icrc7_tokens_of s (acct alice) prev None) (fun x => x) 10 None = Some [2].
Proof.
  exists (run (demo1_h ++ [(from_ alice 1000000000, OBurn 1)]) demo0).
  split; [apply demo_reachable|]. split; vm_compute; reflexivity.
Qed.
Print Assumptions C31_balance_refuted.

(** What is answered: the listed tokens and, in addition, every token burned while it belonged to the account. So the
    property holds as long as the account has burned nothing.  Missing: accounts that burned tokens. *)
Theorem C31_balance_partial caller url_ok a0 s0 h a tk fuel l :
  init caller url_ok a0 = Some s0 ->
  let s := run h s0 in
  allowed s tk -> 1 <= asked s tk -> (size (tokens s) < fuel)%nat ->
  walk (fun _ prev => icrc7_tokens_of s a prev tk) (fun x => x) fuel None = Some l ->
  let burned := filter (fun x => akey (snd x) = akey a) (all_burned_from (trace h s0)) in
  tokens_balance_of s a = nlen l + nlen burned /\ (burned = [] -> tokens_balance_of s a = nlen l).
Proof.
  intros Hi s Ha Hk Hf Hw burned.
  assert (Hr : reachable s) by (exists caller, url_ok, a0, s0, h; auto).
  destruct (account_ids_spec s a) as [ND M]. apply take_ok_iff in Ha.
  assert (E : l = merge_sort N.le (tokens_ids_of_account s a)).
  { unfold icrc7_tokens_of in Hw. rewrite Ha in Hw. rewrite walk_ids in Hw; [congruence|exact ND| |apply page_size_pos; exact Hk|].
    + apply Forall_forall. intros x Hx. apply M in Hx. destruct Hx as (o & Hx & _). rewrite owner_of_tokens in Hx.
      destruct (tokens s !! x) eqn:E; [|discriminate]. apply (wf_lt _ (reachable_wf _ Hr) _ _ E).
    + unfold tokens_ids_of_account. rewrite map_length.
      eapply Nat.le_lt_trans; [apply filter_length|]. exact Hf. }
  assert (B : bal (all_burned_from (trace h s0)) s).
  { pose proof (bal_trace [] h s0 (init_wf _ _ _ _ Hi) (bal_init _ _ _ _ Hi)) as B. exact B. }
  rewrite (bal_count _ _ a B). fold burned.
  assert (nlen l = nlen (tokens_ids_of_account s a)) as -> by (rewrite E; unfold nlen; rewrite merge_sort_Permutation; reflexivity).
  split; [reflexivity|]. intros ->. unfold nlen. simpl. lia.
Qed.
Print Assumptions C31_balance_partial.

Example C31_example :
  let h := demo1_h ++ [(from_ alice 1000000000, OTransfer [xfer bob 1]); (from_ bob 2000000000, OBurn 3)] in
  init admin (fun _ => true) demo_args = Some demo0 /\
  all_burned_from (trace h demo0) = [(3, acct bob)] /\
  icrc7_balance_of (run h demo0) [acct alice; acct bob; acct carol] = Some [1; 2; 0] /\
  walk (fun _ prev => icrc7_tokens_of (run h demo0) (acct alice) prev (Some 1)) (fun x => x) 10 None = Some [2] /\
  walk (fun _ prev => icrc7_tokens_of (run h demo0) (acct bob) prev (Some 1)) (fun x => x) 10 None = Some [1].
Proof. split; [apply demo0_init|]. splits; vm_compute; reflexivity. Qed.

(** ** C32 *)
Theorem C32_batch_queries s :
  let mx := match c_max_query (cfg s) with Some n => if n <? 2 ^ 32 then n else 100 | None => 100 end in
  (forall ids, (icrc7_owner_of s ids = None <-> mx < nlen ids) /\
     forall l, icrc7_owner_of s ids = Some l ->
       length l = length ids /\ forall k t, ids !! k = Some t -> l !! k = Some (owners s !! t)) /\
  (forall accts, (icrc7_balance_of s accts = None <-> mx < nlen accts) /\
     forall l, icrc7_balance_of s accts = Some l ->
       length l = length accts /\ forall k a, accts !! k = Some a -> icrc7_balance_of s [a] = Some [default 0 (l !! k)] \/ mx = 0) /\
  (forall ids, (icrc7_token_metadata s ids = None <-> mx < nlen ids) /\
     forall l, icrc7_token_metadata s ids = Some l ->
       length l = length ids /\
       forall k t, ids !! k = Some t ->
         exists x, l !! k = Some x /\ (is_Some x <-> is_Some (owner_of s t)) /\
           (icrc7_token_metadata s [t] = Some [x] \/ mx = 0)).
Proof.
  intros mx.
  assert (Q : query_limit s = mx).
  { unfold query_limit, mx, usize_try, default_max_query. change (2 ^ 32) with two32.
    destruct (c_max_query (cfg s)) as [n|]; simpl; [destruct (n <? two32)|]; reflexivity. }
  assert (G : forall A B (f : A -> B) l, (batch_query s f l = None <-> mx < nlen l) /\
             (forall r, batch_query s f l = Some r -> r = map f l)).
  { intros A B f l. unfold batch_query. rewrite Q. destruct (mx <? nlen l) eqn:E; split.
    - apply N.ltb_lt in E. tauto.
    - discriminate.
    - apply N.ltb_ge in E. split; [discriminate|lia].
    - congruence. }
  assert (G1 : forall A B (f : A -> B) x, batch_query s f [x] = Some [f x] \/ mx = 0).
  { intros A B f x. unfold batch_query. rewrite Q. unfold nlen. simpl. destruct (mx <? 1) eqn:E; [|auto].
    apply N.ltb_lt in E. right. lia. }
  splits.
  - intros ids. destruct (G _ _ (owner_of s) ids) as [G2 G3]. split; [exact G2|].
    intros l H. apply G3 in H. subst l. split; [apply map_length|]. intros k t Hk.
    rewrite owners_lookup, list_lookup_fmap, Hk. reflexivity.
  - intros ids. destruct (G _ _ (tokens_balance_of s) ids) as [G2 G3]. split; [exact G2|].
    intros l H. apply G3 in H. subst l. split; [apply map_length|]. intros k t Hk.
    rewrite list_lookup_fmap, Hk. simpl. apply G1.
  - intros ids. destruct (G _ _ (fun tid => token_metadata s <$> tokens s !! tid) ids) as [G2 G3]. split; [exact G2|].
    intros l H. apply G3 in H. subst l. split; [apply map_length|]. intros k t Hk.
    exists (token_metadata s <$> tokens s !! t). split; [rewrite list_lookup_fmap, Hk; reflexivity|].
    split; [|apply (G1 _ _ (fun tid => token_metadata s <$> tokens s !! tid))].
    rewrite owner_of_tokens. destruct (tokens s !! t); simpl; split; intros [x X]; try discriminate; eauto.
Qed.
Print Assumptions C32_batch_queries.

Example C32_example :
  icrc7_owner_of demo2 [3; 77; 1] = Some [Some (acct bob); None; Some (acct alice)] /\
  icrc7_balance_of demo2 [acct bob; acct alice] = Some [1; 2] /\
  icrc7_token_metadata demo2 [1; 77] = Some [Some [("a"%string, VNat 1)]; None] /\
  icrc7_owner_of demo2 (repeat 1 101%nat) = None.
Proof. splits; vm_compute; reflexivity. Qed.
