(** Who owns a token, asked of the index: C137. *)
From Verif Require Import Base ModelPrincipal ModelState ModelIcrc7 ModelIcrc37 ModelManagement ModelLifecycle ModelQueries ModelStep
  ModelStorage ModelConsent ModelIndex SpecIndex ProofsItems ProofsManage ProofsMicro Spec ProofsCore ProofsOwner ProofsTime ProofsLog ProofsRate
  ProofsApprovals ProofsQueries ProofsPrincipal ProofsIndex Scenario PropertiesLedger PropertiesReads PropertiesIndex PropertiesCross.
Local Open Scope N_scope.

(** Types of the blocks that make, move or destroy a token. *)
Definition moving : list string := ["7mint"; "7xfer"; "37xfer"; "7burn"]%string.

(** A block that makes, moves or destroys token [n]. *)
Definition moves (v : value) (n : N) : Prop :=
  exists ty m, field v "btype" = Some (VText ty) /\ ty ∈ moving /\ field v "tx" = Some m /\ field m "tid" = Some (VNat n).

(** The last of some block ids. *)
Definition latest (P : N -> Prop) (i : N) : Prop := P i /\ forall j, P j -> j <= i.

(** What the block says about the owner of its token afterwards. *)
Definition says_owner (v : value) (o : option account) : Prop :=
  match o with
  | Some a => exists m x, field v "tx" = Some m /\ field m "to" = Some (VText x) /\ account_text a x
  | None => field v "btype" = Some (VText "7burn")
  end.

(** ** The log has a moving block for every token ever made *)
Definition tx_moves (t : tx) (n : N) : Prop := tx_tid t = Some n /\ tx_btype t ∈ moving.
Definition complete_tx (t : tx) : bool :=
  implb (bool_decide (tx_btype t ∈ ["7mint"; "7xfer"; "37xfer"]%string)) (present (tx_to t)) .

Lemma complete_micro e o s s' : Forall complete_tx (blocks s) -> micro e o s s' -> Forall complete_tx (blocks s').
Proof.
  intros L H.
  assert (snoc : forall i t, complete_tx t -> Forall complete_tx (map snd (log s ++ [(i, t)]))).
  { intros i t Ht. rewrite blocks_snoc. apply Forall_app. split; [exact L|]. constructor; [exact Ht|constructor]. }
  assert (mints : forall idxs now id l, Forall complete_tx (map snd (log s ++ zip idxs (mint_txs now id l)))).
  { intros. rewrite map_app, snd_zip_le. apply Forall_app. split; [exact L|]. apply Forall_take.
    revert id. induction l; intros id; [constructor|]. constructor; [|auto]. vm_compute. exact I. }
  destruct H; open_quiet; try (destruct p, r); try exact L; unfold blocks; simpl; try apply mints; apply snoc;
    unfold complete_tx; cbn [tx_btype tx_tid tx_from tx_to tx_spender present transfer_tx approve_tx revoke_tx transfer_from_tx update_meta_tx burn_tx];
    vm_compute; exact I.
Qed.

Lemma complete_reachable s t : reachable s -> t ∈ blocks s -> complete_tx t.
Proof.
  intros (caller & u & a & s0 & h & Hi & ->). revert t. apply Forall_forall.
  apply (run_inv (fun s => Forall complete_tx (blocks s))).
  - intros. eapply complete_micro; eauto.
  - destruct (init_inv _ _ _ _ Hi) as (_ & _ & _ & _ & ->). constructor.
Qed.

Definition made (s : state) : Prop := forall n, 1 <= n < last_id s -> exists t, t ∈ blocks s /\ tx_moves t n.

Lemma made_micro e o s s' : made s -> micro e o s s' -> made s'.
Proof.
  intros M H.
  assert (more : forall l, forall n, 1 <= n < last_id s -> exists t, t ∈ map snd (log s ++ l) /\ tx_moves t n).
  { intros l n Hn. destruct (M n Hn) as (t & I & T). exists t. split; [|exact T]. rewrite map_app. apply elem_of_app. left. exact I. }
  destruct H; open_quiet; try (destruct p, r); try exact M; intros j Hj; unfold blocks; simpl in *; try (apply more; exact Hj).
  destruct (decide (j < last_id s)) as [D|D]; [apply more; lia|].
  unfold nlen in *. destruct (lookup_lt_is_Some_2 l (N.to_nat (j - last_id s))) as [r Hr]; [lia|].
  exists (mint_tx (e_now e) j r). split; [|split; [reflexivity|set_solver]].
  rewrite map_app, snd_zip_le. apply elem_of_app. right.
  apply (elem_of_list_lookup_2 _ (N.to_nat (j - last_id s))). rewrite lookup_take by (pose proof (lookup_lt_Some _ _ _ Hr); lia).
  rewrite (mint_txs_lookup _ _ _ _ _ Hr). do 2 f_equal. lia.
Qed.

Lemma made_reachable s : reachable s -> made s.
Proof.
  intros (caller & u & a & s0 & h & Hi & ->). apply (run_inv made).
  - intros. eapply made_micro; eauto.
  - destruct (init_last_id _ _ _ _ Hi) as (Li & _). intros n Hn. lia.
Qed.

(** ** The last moving block tells the owner *)
Lemma last_moving n : forall l, (exists t, t ∈ l /\ tx_moves t n) -> Forall complete_tx l ->
  exists i t, l !! i = Some t /\ tx_moves t n /\ (forall j u, l !! j = Some u -> tx_moves u n -> (j <= i)%nat) /\
    if bool_decide (tx_btype t = "7burn"%string) then replay_last l !! n = None
    else exists a, tx_to t = Some a /\ replay_last l !! n = Some a.
Proof.
  intros l. induction l as [|u l IH] using rev_ind; intros (t & I & T) C; [apply elem_of_nil in I; destruct I|].
  apply Forall_app in C. destruct C as [C Cu]. apply Forall_inv in Cu.
  rewrite replay_last_app. cbn [fold_left]. unfold replay_last_block.
  destruct (decide (tx_moves u n)) as [U|U].
  - exists (length l), u. split; [apply list_lookup_middle; reflexivity|]. split; [exact U|]. split.
    { intros j x J _. apply lookup_lt_Some in J. rewrite app_length in J. simpl in J. lia. }
    destruct U as [Ut Ub]. rewrite Ut. case_bool_decide as B; [apply lookup_delete|].
    unfold complete_tx in Cu. apply Is_true_eq_true in Cu. rewrite implb_true_iff, bool_decide_eq_true in Cu.
    assert (K : tx_btype u ∈ ["7mint"; "7xfer"; "37xfer"]%string) by (unfold moving in Ub; set_solver).
    specialize (Cu K). destruct (tx_to u) as [a|]; [|discriminate]. exists a. split; [reflexivity|].
    assert (X : bool_decide (tx_btype u = "7mint"%string) || bool_decide (tx_btype u = "7xfer"%string)
            || bool_decide (tx_btype u = "37xfer"%string) = true).
    { rewrite !orb_true_iff, !bool_decide_eq_true. set_solver. }
    rewrite X. apply lookup_insert.
  - apply elem_of_app in I. destruct I as [I|I]; [|apply elem_of_list_singleton in I; subst t; contradiction].
    destruct (IH (ex_intro _ t (conj I T)) C) as (i & x & Hi & Hx & Hl & Hr). exists i, x.
    pose proof (lookup_lt_Some _ _ _ Hi) as Li.
    split; [rewrite lookup_app_l by exact Li; exact Hi|]. split; [exact Hx|]. split.
    { intros j y J Y. destruct (decide (j < length l)%nat) as [D|D].
      - rewrite lookup_app_l in J by exact D. eauto.
      - exfalso. rewrite lookup_app_r in J by lia. destruct (j - length l)%nat as [|k]; [|destruct k; discriminate].
        injection J as <-. contradiction. }
    assert (Same : forall m : gmap N account, (match tx_tid u with
        | None => m
        | Some i => if bool_decide (tx_btype u = "7burn"%string) then delete i m
                    else if bool_decide (tx_btype u = "7mint"%string) || bool_decide (tx_btype u = "7xfer"%string)
                            || bool_decide (tx_btype u = "37xfer"%string)
                    then match tx_to u with Some a => <[i := a]> m | None => m end else m
        end) !! n = m !! n).
    { intros m. destruct (tx_tid u) as [k|] eqn:Eu; [|reflexivity].
      destruct (decide (k = n)) as [->|Hne].
      - assert (Nb : tx_btype u ∉ moving) by (intros B; apply U; split; assumption). unfold moving in Nb.
        rewrite !bool_decide_eq_false_2 by set_solver. reflexivity.
      - repeat case_bool_decide; simpl; try destruct (tx_to u); rewrite ?lookup_insert_ne, ?lookup_delete_ne by assumption; reflexivity. }
    rewrite Same. exact Hr.
Qed.

Lemma moves_tx t v n : encodes t v -> moves v n <-> tx_moves t n.
Proof.
  intros [E (m & Em & Et & _)]. split.
  - intros (ty & m' & B & K & Em' & Tn). rewrite Em in Em'. injection Em' as <-. rewrite E in B. injection B as <-.
    rewrite Et in Tn. split; [|exact K]. destruct (tx_tid t) as [k|]; [|discriminate]. cbn in Tn. injection Tn as ->. reflexivity.
  - intros [Ht K]. exists (tx_btype t), m. rewrite Et, Ht. auto.
Qed.

(** ** C137 *)

(** What a client finds: the blocks moving token [n] among those listed under the token, or also among the transfers by
    spenders. *)
Definition by_token (L : chain) (x : istate) (n i : N) : Prop := i ∈ listed x (KToken n) /\ moves (L i) n.
Definition by_token_or_spender (L : chain) (x : istate) (n i : N) : Prop :=
  (i ∈ listed x (KToken n) \/ i ∈ listed x (KType "37xfer")) /\ moves (L i) n.

(** An index that has taken in the whole log of the ledger. *)
Definition up_to_date (s : state) (L : chain) (x : istate) : Prop :=
  exists h, x = irun h istart /\ fair L 0 h istart /\ no_overlap h istart /\ last_height 0 h <= nlen (blocks s) /\ istatus x = nlen (blocks s).

(** Full claim: the last moving block listed under a token tells the owner.  What holds: it does, if the transfers by spenders
    are looked at as well.  Missing: the token's own listing is not enough, see below. *)
Theorem C137_owner_partial s L x n :
  reachable s -> ledger_of s L -> up_to_date s L x -> 1 <= n < last_id s ->
  exists i, latest (by_token_or_spender L x n) i /\ says_owner (L i) (owner_of s n).
Proof.
  intros R Led (h & -> & F & No & Hh & St) Hn.
  assert (C : Forall complete_tx (blocks s)) by (apply Forall_forall; intros t; apply complete_reachable; exact R).
  destruct (last_moving n (blocks s) (made_reachable s R n Hn) C) as (i & t & Hi & Ht & Hl & Hr).
  assert (Lo : replay_last (blocks s) !! n = owner_of s n).
  { rewrite (log_last_reachable s R n) by lia. apply owners_lookup. }
  rewrite Lo in Hr.
  assert (Iff : forall k j, j ∈ listed (irun h istart) k <->
      j < nlen (blocks s) /\ exists u, blocks s !! N.to_nat j = Some u /\ concerns u k /\ ~ left_out u k).
  { intros k j. rewrite <- St. exact (C65_end_to_end_partial s L h _ k j R Led F No Hh eq_refl). }
  exists (N.of_nat i). destruct (Led _ _ Hi) as [En _]. split; [split|].
  - split; [|apply (moves_tx t); assumption]. destruct Ht as [Ht Hb].
    pose proof (lookup_lt_Some _ _ _ Hi) as Li.
    destruct (decide (tx_btype t = "37xfer"%string)) as [D|D].
    + right. apply Iff. split; [unfold nlen; lia|]. exists t. rewrite Nat2N.id. split; [exact Hi|]. simpl. auto.
    + left. apply Iff. split; [unfold nlen; lia|]. exists t. rewrite Nat2N.id. split; [exact Hi|]. simpl. auto.
  - intros j [Lj Mj].
    assert (X : j < nlen (blocks s)) by (destruct Lj as [Lj|Lj]; apply Iff in Lj; exact (proj1 Lj)).
    destruct (lookup_lt_is_Some_2 (blocks s) (N.to_nat j)) as [u Hu]; [unfold nlen in X; lia|].
    destruct (Led _ _ Hu) as [Eu _]. rewrite N2Nat.id in Eu. apply (moves_tx u _ _ Eu) in Mj.
    pose proof (Hl _ _ Hu Mj). lia.
  - case_bool_decide as B.
    + rewrite Hr. destruct En as [En _]. rewrite B in En. exact En.
    + destruct Hr as (a & Ta & ->). destruct En as [_ (m & Em & _ & _ & To & _)]. rewrite Ta in To. destruct To as (y & Y1 & Y2).
      exists m, y. auto.
Qed.
Print Assumptions C137_owner_partial.

(** For a token never moved by a spender its own listing is enough. *)
Theorem C137_unspent_partial s L x n :
  reachable s -> ledger_of s L -> up_to_date s L x -> 1 <= n < last_id s ->
  (forall i, i ∈ listed x (KType "37xfer") -> ~ moves (L i) n) ->
  exists i, latest (by_token L x n) i /\ says_owner (L i) (owner_of s n).
Proof.
  intros R Led U Hn No. destruct (C137_owner_partial s L x n R Led U Hn) as (i & [[[I|I] M] Mx] & S).
  - exists i. split; [|exact S]. split; [split; assumption|]. intros j [Lj Mj]. apply Mx. split; [left; exact Lj|exact Mj].
  - destruct (No i I M).
Qed.
Print Assumptions C137_unspent_partial.

(** ** The ledger of the examples, read by an index in one round *)
Definition L_x : chain := fun i => default (VNat 0) (block_of <$> blocks (run demo_x demo0) !! N.to_nat i).
Definition read_x : list (ienv * iop) :=
  [(at_ 10 7, IUpdate); (at_ 11 7, IReply 0 (RLedger [] (map (fun i => (i, L_x i)) [0; 1; 2; 3; 4; 5; 6])))].

Lemma L_x_ledger : ledger_of (run demo_x demo0) L_x.
Proof.
  intros i t H. unfold L_x. rewrite Nat2N.id, H. split; [apply block_of_encodes|]. apply demo_x_typed. eapply elem_of_list_lookup_2, H.
Qed.

Lemma read_x_up_to_date : up_to_date (run demo_x demo0) L_x (irun read_x istart).
Proof.
  exists read_x. split; [reflexivity|]. split; [|split; [|split; vm_compute; [discriminate|reflexivity]]].
  - fair_step. fair_step; [|exact I].
    do 3 eexists. split; [reflexivity|]. split; [reflexivity|]. split; [|repeat constructor]. reflexivity.
  - do 2 overlap_step. exact I.
Qed.

(** The token's own listing: the last moving block there is the mint, to alice, while carol owns the token. *)
Theorem C137_token_listing_refuted :
  exists s L x n i, reachable s /\ ledger_of s L /\ up_to_date s L x /\ 1 <= n < last_id s /\
    latest (by_token L x n) i /\ ~ says_owner (L i) (owner_of s n).
Proof.
  exists (run demo_x demo0), L_x, (irun read_x istart), 1, 0.
  split; [apply demo_reachable|]. split; [exact L_x_ledger|]. split; [exact read_x_up_to_date|].
  split; [split; vm_compute; [discriminate|reflexivity]|]. split; [split|].
  - split; [vm_compute; set_solver|]. exists "7mint"%string. eexists. splits; [vm_compute; reflexivity|vm_compute; set_solver|vm_compute; reflexivity..].
  - intros j [J (ty & m & B & K & _)]. assert (E : listed (irun read_x istart) (KToken 1) = [3; 0]) by (vm_compute; reflexivity).
    rewrite E in J. apply elem_of_cons in J. destruct J as [->|J]; [|apply elem_of_list_singleton in J; lia].
    vm_compute in B. injection B as <-. exfalso. revert K. clear. unfold moving. intros K.
    repeat (apply elem_of_cons in K; destruct K as [K|K]; [discriminate|]). apply elem_of_nil in K. exact K.
  - assert (E : owner_of (run demo_x demo0) 1 = Some (acct carol)) by (vm_compute; reflexivity). rewrite E.
    intros (m & y & M & To & A). vm_compute in M. injection M as <-. vm_compute in To. injection To as <-. vm_compute in A. discriminate.
Qed.
Print Assumptions C137_token_listing_refuted.

Example C137_example :
  reachable (run demo_x demo0) /\ ledger_of (run demo_x demo0) L_x /\ up_to_date (run demo_x demo0) L_x (irun read_x istart) /\
  1 <= 1 < last_id (run demo_x demo0) /\ owner_of (run demo_x demo0) 1 = Some (acct carol) /\
  listed (irun read_x istart) (KType "37xfer") = [5] /\ says_owner (L_x 5) (Some (acct carol)) /\
  ~ moves (L_x 5) 2 /\ listed (irun read_x istart) (KToken 2) = [6; 1] /\ says_owner (L_x 6) (owner_of (run demo_x demo0) 2).
Proof.
  split; [apply demo_reachable|]. split; [exact L_x_ledger|]. split; [exact read_x_up_to_date|].
  split; [split; vm_compute; [discriminate|reflexivity]|]. splits; try (vm_compute; reflexivity).
  - do 2 eexists. splits; vm_compute; reflexivity.
  - intros (ty & m & _ & _ & M & T). vm_compute in M. injection M as <-. vm_compute in T. discriminate.
  - assert (E : owner_of (run demo_x demo0) 2 = Some (mkAcc bob (Some (repeat 7 32)))) by (vm_compute; reflexivity). rewrite E.
    do 2 eexists. splits; vm_compute; reflexivity.
Qed.
