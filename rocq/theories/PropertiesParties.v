(** C172: both parties of a change of ownership find it in the index. *)
From Verif Require Import Base ModelPrincipal ModelState ModelIcrc7 ModelIcrc37 ModelManagement ModelLifecycle ModelQueries ModelStep
  ModelStorage ModelConsent ModelIndex SpecIndex ProofsItems ProofsManage ProofsMicro Spec ProofsCore ProofsOwner ProofsTime ProofsLog ProofsLock ProofsRate
  ProofsApprovals ProofsQueries ProofsPrincipal ProofsIndex Scenario PropertiesLedger PropertiesReads PropertiesIndex PropertiesCross
  PropertiesRecord PropertiesProvenance.
Local Open Scope N_scope.

(** Some of the blocks [l] makes, moves or destroys token [n], taken from an account with the key of [x] / given to [y]. *)
Definition taken (l : list tx) (n : N) (x : account) : Prop :=
  exists t f, t ∈ l /\ tx_moves t n /\ tx_from t = Some f /\ akey f = akey x.
Definition given (l : list tx) (n : N) (y : account) : Prop :=
  exists t, t ∈ l /\ tx_moves t n /\ tx_to t = Some y.

(** Every change of ownership between two states is told by the blocks written between them, to both sides. *)
Definition told (s s' : state) : Prop :=
  exists l, blocks s' = blocks s ++ l /\
    forall n, owner_of s' n = owner_of s n \/
      ((forall x, owner_of s n = Some x -> taken l n x) /\ (forall y, owner_of s' n = Some y -> given l n y)).

Lemma taken_app l l' n x : taken l n x \/ taken l' n x -> taken (l ++ l') n x.
Proof. intros [(t & f & A & B)|(t & f & A & B)]; exists t, f; (split; [apply elem_of_app; auto|exact B]). Qed.
Lemma given_app l l' n x : given l n x \/ given l' n x -> given (l ++ l') n x.
Proof. intros [(t & A & B)|(t & A & B)]; exists t; (split; [apply elem_of_app; auto|exact B]). Qed.

Lemma told_refl s : told s s.
Proof. exists []. split; [rewrite app_nil_r; reflexivity|auto]. Qed.

Lemma told_trans a b c : told a b -> told b c -> told a c.
Proof.
  intros (l & E & H) (l' & E' & H'). exists (l ++ l'). split; [rewrite E', E, app_assoc; reflexivity|].
  intros n. destruct (H n) as [K|[K1 K2]], (H' n) as [K'|[K1' K2']].
  - left. congruence.
  - right. split; intros; [apply taken_app|apply given_app]; right; [apply K1'; congruence|apply K2'; assumption].
  - right. split; intros; [apply taken_app|apply given_app]; left; [apply K1; assumption|apply K2; congruence].
  - right. split; intros; [apply taken_app; left; auto|apply given_app; right; auto].
Qed.

Lemma told_same s s' l : blocks s' = blocks s ++ l -> tokens s' = tokens s -> told s s'.
Proof. intros E T. exists l. split; [exact E|]. intros n. left. unfold owner_of. rewrite T. reflexivity. Qed.

Lemma told_micro e o s s' : wf s -> micro e o s s' -> told s s'.
Proof.
  intros W H.
  assert (moved : forall k t (nft : token) to s2, tokens s !! k = Some nft -> tokens s2 = <[k := mkTok k to]> (tokens s) ->
    blocks s2 = blocks s ++ [t] -> tx_moves t k -> (exists f, tx_from t = Some f /\ akey f = akey (t_owner nft)) -> tx_to t = Some to -> told s s2).
  { intros k t nft to s2 K T B M (f & F & A) To. exists [t]. split; [exact B|]. intros n. unfold owner_of. rewrite T.
    destruct (decide (k = n)) as [<-|D]; [|left; rewrite lookup_insert_ne by exact D; reflexivity].
    right. rewrite lookup_insert, K. simpl. split.
    - intros x [= <-]. exists t, f. split; [left|auto].
    - intros y [= <-]. exists t. split; [left|auto]. }
  destruct H; open_quiet.
  all: try (apply told_refl).
  all: try (eapply told_same; [unfold blocks; simpl; rewrite ?map_app; reflexivity|reflexivity]).
  all: try (apply (told_same _ _ []); [rewrite app_nil_r; reflexivity|reflexivity]).
  - (* transfer *)
    pose proof (wf_id _ W _ _ H1) as I.
    eapply (moved (ta_tid a)); [exact H1|simpl; rewrite I; reflexivity|unfold blocks; simpl; rewrite map_app; reflexivity|
      split; [reflexivity|set_solver]|eexists; split; reflexivity|reflexivity].
  - (* transfer_from *)
    pose proof (wf_id _ W _ _ H1) as I.
    eapply (moved (tf_tid a)); [exact H1|simpl; rewrite I; reflexivity|unfold blocks; simpl; rewrite map_app; reflexivity|
      split; [reflexivity|set_solver]|eexists; split; [reflexivity|congruence]|reflexivity].
  - (* mint *)
    exists (mint_txs (e_now e) (last_id s) l). split.
    { unfold blocks. simpl. rewrite map_app, snd_zip; [reflexivity|]. rewrite mint_txs_length. lia. }
    intros q. unfold owner_of. simpl. rewrite mint_tokens_lookup. destruct (decide _) as [D|D]; [|left; reflexivity]. right.
    split.
    + intros x X. destruct (tokens s !! q) as [t|] eqn:T; [|discriminate]. apply (wf_lt _ W) in T. lia.
    + intros y Y. destruct (l !! N.to_nat (q - last_id s)) as [r|] eqn:R; [|discriminate]. simpl in Y. injection Y as <-.
      exists (mint_tx (e_now e) q r). split; [|split; [split; [reflexivity|set_solver]|reflexivity]].
      apply (elem_of_list_lookup_2 _ (N.to_nat (q - last_id s))). rewrite (mint_txs_lookup _ _ _ _ _ R). do 2 f_equal. lia.
  - (* burn *)
    exists [burn_tx (e_now e) tid tok]. split; [unfold blocks; simpl; rewrite map_app; reflexivity|].
    intros k. unfold owner_of. simpl. destruct (decide (tid = k)) as [<-|D]; [|left; rewrite lookup_delete_ne by exact D; reflexivity].
    right. rewrite lookup_delete. simpl. split; [|discriminate]. intros x X.
    match goal with T : tokens s !! tid = Some tok |- _ => rewrite T in X end. injection X as <-.
    eexists _, (t_owner tok). split; [left|]. split; [split; [reflexivity|set_solver]|auto].
  - destruct p, r; simpl; apply (told_same _ _ []); rewrite ?app_nil_r; reflexivity.
Qed.

Lemma told_step e o s : wf s -> told s (fst (step e o s)).
Proof.
  apply (step_rel wf told e o s); [apply told_refl|apply told_trans|].
  intros a b W M. split; [eapply wf_micro; eauto|eapply told_micro; eauto].
Qed.

Lemma log_later h : forall s, exists l, blocks (run h s) = blocks s ++ l.
Proof.
  induction h as [|[e o] h IH]; intros s; simpl; [exists []; rewrite app_nil_r; reflexivity|].
  destruct (IH (fst (step e o s))) as [l E].
  destruct (C90_log_append_only e o s _ _ (surjective_pairing _)) as (l' & E' & _).
  exists (map snd l' ++ l). rewrite E. unfold blocks. rewrite E', map_app, app_assoc. reflexivity.
Qed.

(** Block [v] names, in the given role, an account with key [k]. *)
Definition names (v : value) (role : string) (k : principal * bytes) : Prop :=
  exists m f, field v "tx" = Some m /\ holds_account m role (Some f) /\ akey f = k.

(** Block [i] was written by the message of [ev]. *)
Definition written_by (ev : event) (i : N) : Prop := nlen (blocks (ev_before ev)) <= i < nlen (blocks (ev_after ev)).

(** A block that a message wrote is found under the accounts it names. *)
Lemma found c u a s0 h ev L x l t f role :
  init c u a = Some s0 -> ev ∈ trace h s0 -> ledger_of (run h s0) L -> up_to_date (run h s0) L x ->
  blocks (ev_after ev) = blocks (ev_before ev) ++ l -> t ∈ l -> tx_btype t ∈ moving ->
  (role = "from"%string /\ tx_from t = Some f \/ role = "to"%string /\ tx_to t = Some f) -> snd (akey f) = default_sub ->
  exists i, i ∈ listed x (KAccount (akey f)) /\ written_by ev i /\ encodes t (L i) /\ names (L i) role (akey f).
Proof.
  intros I Ev Led (hx & -> & Fa & No & Hh & St) B T M R D.
  assert (Rs : reachable (run h s0)) by (exists c, u, a, s0, h; auto).
  destruct (trace_step _ _ _ Ev) as (S & h1 & h2 & Eh & Eb).
  assert (Ea : ev_after ev = fst (step (ev_env ev) (ev_op ev) (ev_before ev))) by (rewrite S; reflexivity).
  destruct (log_later h2 (ev_after ev)) as [l2 E2].
  assert (Fin : blocks (run h s0) = (blocks (ev_before ev) ++ l) ++ l2).
  { rewrite Eh, run_app. simpl. rewrite <- Eb, <- Ea, E2, B. reflexivity. }
  apply elem_of_list_lookup in T. destruct T as [k T]. pose proof (lookup_lt_Some _ _ _ T) as Lk.
  set (j := (length (blocks (ev_before ev)) + k)%nat).
  assert (J : blocks (run h s0) !! j = Some t).
  { rewrite Fin, lookup_app_l by (unfold j; rewrite app_length; lia). rewrite lookup_app_r by (unfold j; lia).
    replace (j - length (blocks (ev_before ev)))%nat with k by (unfold j; lia). exact T. }
  exists (N.of_nat j). destruct (Led _ _ J) as [En Ty]. split; [|split; [|split; [exact En|]]].
  - rewrite (C65_end_to_end_partial _ L hx _ _ _ Rs Led Fa No Hh eq_refl). split.
    + rewrite St. unfold nlen. pose proof (lookup_lt_Some _ _ _ J). lia.
    + exists t. rewrite Nat2N.id. split; [exact J|]. split.
      * exists f. split; [|reflexivity]. unfold named_in. destruct R as [[_ R]|[_ R]]; auto.
      * simpl. intros [X|[X _]]; [contradiction|]. rewrite X in M. unfold moving in M.
        repeat (apply elem_of_cons in M; destruct M as [M|M]; [discriminate|]). apply elem_of_nil in M. exact M.
  - unfold written_by, nlen. rewrite B, app_length. unfold j. lia.
  - destruct En as (_ & m & Em & _ & Hf & Ht & _). exists m, f. split; [exact Em|]. split; [|reflexivity].
    destruct R as [[-> R]|[-> R]]; rewrite R in *; assumption.
Qed.

Lemma encodes_moves t v n : encodes t v -> tx_moves t n -> moves v n.
Proof.
  intros (E & m & Em & Et & _) [T M]. exists (tx_btype t), m. rewrite T in Et. simpl in Et. auto.
Qed.

Lemma told_event c u a s0 h ev : init c u a = Some s0 -> ev ∈ trace h s0 -> told (ev_before ev) (ev_after ev).
Proof.
  intros I Ev. destruct (trace_step _ _ _ Ev) as (S & h1 & h2 & _ & Eb).
  replace (ev_after ev) with (fst (step (ev_env ev) (ev_op ev) (ev_before ev))) by (rewrite S; reflexivity).
  apply told_step. rewrite Eb. apply reachable_wf. exists c, u, a, s0, h1. auto.
Qed.

(** ** C172 *)

(** Who loses a token finds, in an index that is up to date, a block written by that very message, under the own account,
    about the token, with the own account as the source.  Missing: accounts with a subaccount (the index lists none). *)
Theorem C172_giver_partial c u a s0 h ev L x n ow :
  init c u a = Some s0 -> ev ∈ trace h s0 -> ledger_of (run h s0) L -> up_to_date (run h s0) L x ->
  owner_of (ev_before ev) n = Some ow -> owner_of (ev_after ev) n <> Some ow -> snd (akey ow) = default_sub ->
  exists i, i ∈ listed x (KAccount (akey ow)) /\ written_by ev i /\ moves (L i) n /\ names (L i) "from" (akey ow).
Proof.
  intros I Ev Led U O O' D. destruct (told_event _ _ _ _ _ _ I Ev) as (l & B & T).
  destruct (T n) as [K|[K _]]; [congruence|]. destruct (K ow O) as (t & f & It & M & F & A). rewrite <- A in *.
  destruct (found c u a s0 h ev L x l t f "from" I Ev Led U B It (proj2 M)) as (i & H1 & H2 & H3 & H4); auto.
  exists i. splits; auto. eapply encodes_moves; eauto.
Qed.
Print Assumptions C172_giver_partial.

(** Who is given a token, by mint or transfer, likewise. *)
Theorem C172_receiver_partial c u a s0 h ev L x n ow :
  init c u a = Some s0 -> ev ∈ trace h s0 -> ledger_of (run h s0) L -> up_to_date (run h s0) L x ->
  owner_of (ev_after ev) n = Some ow -> owner_of (ev_before ev) n <> Some ow -> snd (akey ow) = default_sub ->
  exists i, i ∈ listed x (KAccount (akey ow)) /\ written_by ev i /\ moves (L i) n /\ names (L i) "to" (akey ow).
Proof.
  intros I Ev Led U O O' D. destruct (told_event _ _ _ _ _ _ I Ev) as (l & B & T).
  destruct (T n) as [K|[_ K]]; [congruence|]. destruct (K ow O) as (t & It & M & F).
  destruct (found c u a s0 h ev L x l t ow "to" I Ev Led U B It (proj2 M)) as (i & H1 & H2 & H3 & H4); auto.
  exists i. splits; auto. eapply encodes_moves; eauto.
Qed.
Print Assumptions C172_receiver_partial.

(** Refuted for subaccounts: bob is given token 2 on one of them, and the index has nothing about it. *)
Theorem C172_receiver_refuted :
  exists c u a s0 h ev L x n ow,
    init c u a = Some s0 /\ ev ∈ trace h s0 /\ ledger_of (run h s0) L /\ up_to_date (run h s0) L x /\
    owner_of (ev_after ev) n = Some ow /\ owner_of (ev_before ev) n <> Some ow /\ listed x (KAccount (akey ow)) = [].
Proof.
  exists admin, (fun _ => true), demo_args, demo0, demo_x.
  assert (X : exists ev, last (trace demo_x demo0) = Some ev /\ owner_of (ev_after ev) 2 = Some (mkAcc bob (Some (repeat 7 32))) /\
              owner_of (ev_before ev) 2 = Some (acct alice)).
  { destruct (last (trace demo_x demo0)) as [ev|] eqn:E; [|vm_compute in E; discriminate]. exists ev. split; [reflexivity|].
    assert (Y : option_map (fun ev => (owner_of (ev_after ev) 2, owner_of (ev_before ev) 2)) (last (trace demo_x demo0)) =
                Some (Some (mkAcc bob (Some (repeat 7 32))), Some (acct alice))) by (vm_compute; reflexivity).
    rewrite E in Y. simpl in Y. injection Y as Y1 Y2. auto. }
  destruct X as (ev & E & A & B). exists ev, L_x, (irun read_x istart), 2, (mkAcc bob (Some (repeat 7 32))).
  split; [apply demo0_init|]. split; [apply last_Some_elem_of; exact E|]. split; [exact L_x_ledger|]. split; [exact read_x_up_to_date|].
  split; [exact A|]. split; [rewrite B; discriminate|]. vm_compute. reflexivity.
Qed.
Print Assumptions C172_receiver_refuted.

(** Bob moves token 1 from alice to carol: block 5, listed under both. *)
Example C172_example :
  init admin (fun _ => true) demo_args = Some demo0 /\ ledger_of (run demo_x demo0) L_x /\
  up_to_date (run demo_x demo0) L_x (irun read_x istart) /\
  (exists ev, ev ∈ trace demo_x demo0 /\ owner_of (ev_before ev) 1 = Some (acct alice) /\ owner_of (ev_after ev) 1 = Some (acct carol) /\
     written_by ev 5) /\
  snd (akey (acct alice)) = default_sub /\ snd (akey (acct carol)) = default_sub /\
  bool_decide (5 ∈ listed (irun read_x istart) (KAccount (akey (acct alice)))) = true /\
  listed (irun read_x istart) (KAccount (akey (acct carol))) = [5].
Proof.
  split; [apply demo0_init|]. split; [exact L_x_ledger|]. split; [exact read_x_up_to_date|]. split.
  - destruct (trace demo_x demo0 !! 3%nat) as [ev|] eqn:E; [|vm_compute in E; discriminate]. exists ev.
    split; [eapply elem_of_list_lookup_2; exact E|].
    assert (Y : option_map (fun ev => (owner_of (ev_before ev) 1, owner_of (ev_after ev) 1, nlen (blocks (ev_before ev)), nlen (blocks (ev_after ev))))
                  (trace demo_x demo0 !! 3%nat) = Some (Some (acct alice), Some (acct carol), 5, 6)) by (vm_compute; reflexivity).
    rewrite E in Y. simpl in Y. injection Y as Y1 Y2 Y3 Y4. unfold written_by. rewrite Y3, Y4. splits; auto; lia.
  - splits; vm_compute; reflexivity.
Qed.
