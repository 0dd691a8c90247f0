(** C168: the balances of all accounts add up to the total supply. *)
From Verif Require Import Base ModelPrincipal ModelState ModelIcrc7 ModelIcrc37 ModelManagement ModelLifecycle
  ModelQueries ModelStep ProofsItems ProofsManage ProofsMicro ProofsCore ProofsQueries ProofsBalance ProofsOwner Spec Scenario.
Local Open Scope N_scope.

(** The accounts asked about are different ones, and every token that exists belongs to one of them. *)
Definition census (s : state) (accts : list account) : Prop :=
  NoDup (map akey accts) /\
  forall i o, owner_of s i = Some o -> akey o ∈ map akey accts.

(** False as stated: after a burn the balances add up to more. *)
Theorem C168_sum_refuted :
  exists s, reachable s /\ census s [acct alice; acct bob] /\
    icrc7_balance_of s [acct alice; acct bob] = Some [2; 1] /\ total_supply s = 2.
Proof.
  exists (run (demo1_h ++ [(from_ alice 1000000000, OBurn 1)]) demo0).
  split; [apply demo_reachable|]. split; [|split; vm_compute; reflexivity].
  split; [apply (bool_decide_unpack _); vm_compute; exact Logic.I|].
  intros i o H. rewrite owner_of_tokens in H.
  destruct (tokens (run (demo1_h ++ [(from_ alice 1000000000, OBurn 1)]) demo0) !! i) as [t|] eqn:E; [|discriminate].
  injection H as <-. apply elem_of_map_to_list in E.
  assert (F : Forall (fun x : N * token => akey (t_owner (snd x)) ∈ map akey [acct alice; acct bob])
    (map_to_list (tokens (run (demo1_h ++ [(from_ alice 1000000000, OBurn 1)]) demo0))))
    by (apply (bool_decide_unpack _); vm_compute; exact Logic.I).
  rewrite Forall_forall in F. exact (F _ E).
Qed.
Print Assumptions C168_sum_refuted.

Lemma in_flat {A B} (f : A -> list B) l x : x ∈ flat_map f l <-> exists a, a ∈ l /\ x ∈ f a.
Proof.
  rewrite elem_of_list_In, in_flat_map. setoid_rewrite elem_of_list_In. reflexivity.
Qed.
Lemma flat_NoDup {A B} (f : A -> list B) (l : list A) :
  (forall a, NoDup (f a)) -> (forall k k' a b x, l !! k = Some a -> l !! k' = Some b -> x ∈ f a -> x ∈ f b -> k = k') -> NoDup (flat_map f l).
Proof.
  intros N. induction l as [|a l IH]; intros D; simpl; [constructor|].
  apply NoDup_app. split; [apply N|]. split.
  - intros x H1 H2. apply in_flat in H2. destruct H2 as (b & Hb & H2). apply elem_of_list_lookup in Hb. destruct Hb as [k Hb].
    specialize (D 0%nat (S k) a b x eq_refl Hb H1 H2). discriminate.
  - apply IH. intros k k' b c x H1 H2 H3 H4. specialize (D (S k) (S k') b c x H1 H2 H3 H4). lia.
Qed.
Lemma sum_flat {A B} (f : A -> list B) (l : list A) : length (flat_map f l) = sum_list (map (fun a => length (f a)) l).
Proof. induction l as [|a l IH]; simpl; [reflexivity|]. rewrite app_length, IH. reflexivity. Qed.
(** The sum of a list of answers. *)
Definition total (l : list N) : N := fold_right N.add 0 l.

(** What is true: the balances add up to the total supply and the tokens burned by the accounts asked about. So they do add up
    to the supply as long as nothing was burned.  Missing: collections with burned tokens. *)
Theorem C168_sum_partial caller url_ok a0 s0 h accts l :
  init caller url_ok a0 = Some s0 ->
  let s := run h s0 in
  let burned := all_burned_from (trace h s0) in
  census s accts -> icrc7_balance_of s accts = Some l ->
  total l = total_supply s + nlen (filter (fun x => akey (snd x) ∈ map akey accts) burned) /\
  (burned = [] -> total l = total_supply s).
Proof.
  intros Hi s burned [ND Cov] Hl.
  assert (X : total l = total_supply s + nlen (filter (fun x => akey (snd x) ∈ map akey accts) burned));
    [|split; [exact X|]; intros E; rewrite X, E; unfold nlen; simpl; lia].
  assert (Bs : bal burned s) by exact (bal_trace [] h s0 (init_wf _ _ _ _ Hi) (bal_init _ _ _ _ Hi)).
  destruct Bs as [A1 A2 A3 A4].
  unfold icrc7_balance_of, batch_query in Hl. destruct (query_limit s <? nlen accts); [discriminate|]. injection Hl as <-.
  set (f := fun a : account => default [] (by_owner s !! akey a)).
  assert (S : total (map (tokens_balance_of s) accts) = nlen (flat_map f accts)).
  { unfold nlen. rewrite sum_flat. clear ND Cov. induction accts as [|a r IH]; simpl; [reflexivity|].
    fold (total (map (tokens_balance_of s) r)). rewrite IH, Nat2N.inj_add. f_equal.
    unfold tokens_balance_of, f. destruct (by_owner s !! akey a); reflexivity. }
  rewrite S.
  assert (P : flat_map f accts ≡ₚ map fst (map_to_list (tokens s)) ++
      map fst (filter (fun x : N * account => akey (snd x) ∈ map akey accts) burned)).
  { apply NoDup_Permutation.
    - apply flat_NoDup; [intros a; apply A1|]. intros k k' a b x Ha Hb X1 X2.
      assert (K : akey a = akey b).
      { unfold f in X1, X2. apply A2 in X1. apply A2 in X2.
        destruct X1 as [(t & T & O)|(o & T & O)], X2 as [(t' & T' & O')|(o' & T' & O')].
        - congruence.
        - apply A3 in T'. destruct T'. congruence.
        - apply A3 in T. destruct T. congruence.
        - assert (o = o') as <-; [|congruence].
          apply elem_of_list_lookup in T. apply elem_of_list_lookup in T'. destruct T as [i T], T' as [j T'].
          assert (i = j) as <-.
          { eapply (NoDup_lookup (map fst burned)); [exact A4| |]; rewrite list_lookup_fmap; [rewrite T|rewrite T']; reflexivity. }
          congruence. }
      eapply (NoDup_lookup (map akey accts)); [exact ND| |]; rewrite list_lookup_fmap; [rewrite Ha|rewrite Hb]; simpl; rewrite ?K; reflexivity.
    - apply NoDup_app. split; [apply NoDup_fst_map_to_list|]. split.
      + intros x H1 H2. apply elem_of_list_fmap in H1. destruct H1 as ([i t] & -> & H1). apply elem_of_map_to_list in H1.
        apply elem_of_list_fmap in H2. destruct H2 as ([j o] & E & H2). simpl in E. subst j.
        apply elem_of_list_filter in H2. destruct H2 as [_ H2]. apply A3 in H2. destruct H2. simpl in *. congruence.
      + apply fst_filter_NoDup. exact A4.
    - intros i. rewrite in_flat, elem_of_app, !elem_of_list_fmap. unfold f. setoid_rewrite A2. split.
      + intros (a & Ha & [(t & T & O)|(o & T & O)]).
        * left. exists (i, t). split; [reflexivity|]. apply elem_of_map_to_list. exact T.
        * right. exists (i, o). split; [reflexivity|]. apply elem_of_list_filter. split; [|exact T]. simpl.
          rewrite O. apply elem_of_list_fmap. eauto.
      + intros [([j t] & -> & T)|([j o] & -> & T)]; simpl.
        * apply elem_of_map_to_list in T. destruct (proj1 (elem_of_list_fmap akey accts _) (Cov j (t_owner t) ltac:(rewrite owner_of_tokens, T; reflexivity)))
            as (a & E & Ha). exists a. split; [exact Ha|]. left. eauto.
        * apply elem_of_list_filter in T. destruct T as [C T]. simpl in C. apply elem_of_list_fmap in C. destruct C as (a & E & Ha).
          exists a. split; [exact Ha|]. right. eauto. }
  unfold nlen at 1. rewrite P, app_length, !map_length, Nat2N.inj_add. unfold total_supply, nlen. f_equal.
Qed.
Print Assumptions C168_sum_partial.

Example C168_example :
  let h := demo1_h ++ [(from_ alice 1000000000, OTransfer [xfer bob 1]); (from_ bob 2000000000, OBurn 3)] in
  init admin (fun _ => true) demo_args = Some demo0 /\
  all_burned_from (trace h demo0) = [(3, acct bob)] /\
  icrc7_balance_of (run h demo0) [acct alice; acct bob; acct carol] = Some [1; 2; 0] /\ total_supply (run h demo0) = 2 /\
  Forall (fun x : N * token => akey (t_owner (snd x)) ∈ map akey [acct alice; acct bob; acct carol])
    (map_to_list (tokens (run h demo0))).
Proof.
  split; [apply demo0_init|]. split; [vm_compute; reflexivity|]. split; [vm_compute; reflexivity|]. split; [vm_compute; reflexivity|].
  apply (bool_decide_unpack _). vm_compute. exact Logic.I.
Qed.
