(** Installation and upgrade arguments, what storage canisters and the log are configured with, what the metrics page shows. *)
From Verif Require Import Base ModelPrincipal ModelState ModelIcrc7 ModelIcrc37 ModelManagement ModelLifecycle ModelQueries
  ModelStep ModelHttp ModelInstall Spec ProofsItems ProofsManage ProofsMicro Scenario PropertiesLive.

(** ** Vocabulary *)

(** The build that the upgrades of a history leave, starting from [b]: upgrades with an installation argument do not count. *)
Definition current_build (b : build) (h : list (env * cop)) : build :=
  fold_left (fun b x => match snd x with CUpgrade _ (AUpgrade b') => b' | _ => b end) h b.

(** The messages a history has for the ledger part: refused upgrades do not reach it. *)
Definition ledger_history (h : list (env * cop)) : history :=
  concat (map (fun x => match snd x with
                        | CMsg OUpgrade => []
                        | CMsg o => [(fst x, o)]
                        | CUpgrade _ (AUpgrade _) => [(fst x, OUpgrade)]
                        | CUpgrade _ (AInit _ _) => []
                        end) h).

Lemma can_run_state h k : k_state (can_run h k) = run (ledger_history h) (k_state k).
Proof.
  revert k. induction h as [|[e c] h IH]; intros k; [reflexivity|].
  cbn [can_run]. rewrite IH. unfold ledger_history. cbn [map concat fst snd]. rewrite run_app. f_equal.
  destruct c as [o|w [a b|b]]; cbn [can_step can_upgrade fst k_state run app]; try reflexivity.
  destruct o; reflexivity.
Qed.

Lemma can_run_fixed h k :
  k_test_mode (can_run h k) = k_test_mode k /\ k_storage (can_run h k) = k_storage k /\
  k_log_window (can_run h k) = k_log_window k /\ k_build (can_run h k) = current_build (k_build k) h.
Proof.
  revert k. induction h as [|[e c] h IH]; intros k; [auto|].
  cbn [can_run]. destruct (IH (fst (can_step e c k))) as (-> & -> & -> & ->).
  unfold current_build. cbn [fold_left snd].
  destruct c as [o|w [a b|b]]; cbn [can_step can_upgrade fst]; try tauto.
  destruct o; auto.
Qed.

Lemma init_fields caller url_ok a s0 :
  init caller url_ok a = Some s0 ->
  cfg s0 = init_cfg a /\ perms s0 = (if i_test_mode a then test_mode_grants caller (i_permissions a) else i_permissions a).
Proof. unfold init. repeat case_match; try discriminate; intros E; injection E as <-; auto. Qed.

(** ** C94: only the matching kind of argument is accepted, and the version reported is that of the last upgrade *)

Theorem C94_wrong_kind caller self url_ok wasm b a e k :
  can_init caller self url_ok wasm (AUpgrade b) = None /\
  can_step e (CUpgrade wasm (AInit a b)) k = (k, ATrap).
Proof. split; reflexivity. Qed.

Theorem C94_version caller self url_ok wasm a b k h :
  can_init caller self url_ok wasm (AInit a b) = Some k ->
  k_build (can_run h k) = current_build b h /\ k_test_mode (can_run h k) = i_test_mode a /\
  exists s0, init caller url_ok a = Some s0 /\ k_state (can_run h k) = run (ledger_history h) s0.
Proof.
  cbn [can_init]. destruct (init caller url_ok a) as [s0|] eqn:E; [|discriminate].
  intros H. assert (k = mkCan s0 (i_test_mode a) b
    (mkStorage (i_test_mode a) b (storage_authorized self (i_permissions a)) wasm) (log_window_ns a)) as -> by congruence.
  destruct (can_run_fixed h (mkCan s0 (i_test_mode a) b
    (mkStorage (i_test_mode a) b (storage_authorized self (i_permissions a)) wasm) (log_window_ns a))) as (-> & _ & _ & ->).
  split; [reflexivity|]. split; [reflexivity|]. exists s0. split; [reflexivity|]. apply can_run_state.
Qed.

Definition build1 : build := mkBuild (1, 0, 0) "c1".
Definition build2 : build := mkBuild (1, 1, 0) "c2".
Definition demo_can : canister :=
  mkCan demo0 false build1 (mkStorage false build1 [admin; [77]] 1) 0.
Lemma demo_can_init : can_init admin [77] (fun _ => true) 1 (AInit demo_args build1) = Some demo_can.
Proof. vm_compute. reflexivity. Qed.

Example C94_example :
  let k := can_run [(from_ admin 0, CMsg mint3); (from_ admin 1, CUpgrade 2 (AInit demo_args build2));
                    (from_ admin 2, CUpgrade 2 (AUpgrade build2))] demo_can in
  k_build k = build2 /\ size (tokens (k_state k)) = 3%nat.
Proof. vm_compute. split; reflexivity. Qed.

(** ** C95: storage canisters obey the managers of the collection *)

(** A canister reached from an installation. *)
Definition can_reachable (self : principal) (k : canister) : Prop :=
  exists caller url_ok wasm x k0 h, can_init caller self url_ok wasm x = Some k0 /\ k = can_run h k0.

(** The full claim, for every reachable canister: a storage canister created now obeys the canister itself and exactly the
    holders of ManageAuthorities.  It is false: the list is taken at installation and never changed. *)
Theorem C95_storage_rights_refuted :
  exists self k p q, can_reachable self k /\
    holds (k_state k) p PManageAuthorities /\ p ∉ sg_authorized (k_storage k) /\
    ~ holds (k_state k) q PManageAuthorities /\ q ∈ sg_authorized (k_storage k).
Proof.
  exists [77], (can_run [(from_ admin 1, CMsg (OGrant alice PManageAuthorities));
                         (from_ admin 2, CMsg (ORevokePerm admin PManageAuthorities))] demo_can), alice, admin.
  split. { exists admin, (fun _ => true), 1, (AInit demo_args build1), demo_can. eexists. split; [apply demo_can_init|reflexivity]. }
  split. { exists [PManageAuthorities]. split; [vm_compute; reflexivity|set_solver]. }
  split. { vm_compute. intros H. repeat (apply elem_of_cons in H as [H|H]; [discriminate|]). by apply elem_of_nil in H. }
  split. { intros (l & E & H). vm_compute in E. injection E as <-. vm_compute in H.
    repeat (apply elem_of_cons in H as [H|H]; [discriminate|]). by apply elem_of_nil in H. }
  vm_compute. left.
Qed.

Lemma storage_authorized_in self m p :
  p ∈ storage_authorized self m <-> p = self \/ exists l, m !! p = Some l /\ PManageAuthorities ∈ l.
Proof.
  unfold storage_authorized. rewrite elem_of_app, elem_of_list_singleton, elem_of_list_fmap. split.
  - intros [([q l] & -> & H)| ->]; [|auto]. apply elem_of_list_filter in H as (H & H2). apply elem_of_map_to_list in H2.
    right. exists l. auto.
  - intros [->|(l & E & H)]; [auto|]. left. exists (p, l). split; [reflexivity|].
    apply elem_of_list_filter. split; [exact H|]. by apply elem_of_map_to_list.
Qed.

(** What holds: the list is exactly right at an installation outside test mode, and stays what it was. *)
Theorem C95_storage_rights_partial caller self url_ok wasm a b k h :
  can_init caller self url_ok wasm (AInit a b) = Some k ->
  (forall p, p ∈ sg_authorized (k_storage (can_run h k)) <->
     p = self \/ exists l, i_permissions a !! p = Some l /\ PManageAuthorities ∈ l) /\
  (i_test_mode a = false -> forall p, p ∈ sg_authorized (k_storage k) <-> p = self \/ holds (k_state k) p PManageAuthorities).
Proof.
  intros H. destruct (can_run_fixed h k) as (_ & -> & _). revert H.
  cbn [can_init]. destruct (init caller url_ok a) as [s0|] eqn:E; [|discriminate].
  intros H. assert (k = mkCan s0 (i_test_mode a) b
    (mkStorage (i_test_mode a) b (storage_authorized self (i_permissions a)) wasm) (log_window_ns a)) as -> by congruence.
  cbn [k_storage sg_authorized k_state]. split; [apply storage_authorized_in|].
  intros Ht p. rewrite storage_authorized_in. unfold holds.
  replace (perms s0) with (i_permissions a); [reflexivity|].
  apply init_fields in E as (_ & ->). rewrite Ht. reflexivity.
Qed.

Example C95_example :
  sg_authorized (k_storage demo_can) = [admin; [77]] /\ i_test_mode demo_args = false.
Proof. split; reflexivity. Qed.

(** ** C96: storage canisters created after an upgrade run the code and carry the version of the upgraded collection *)

Theorem C96_storage_code_refuted :
  exists self k wasm b, can_reachable self k /\
    let x := can_step (from_ admin 1) (CUpgrade wasm (AUpgrade b)) k in
    snd x = AOk /\ k_build (fst x) = b /\ sg_build (k_storage (fst x)) <> b /\ sg_wasm (k_storage (fst x)) <> wasm.
Proof.
  exists [77], demo_can, 2, build2. split.
  { exists admin, (fun _ => true), 1, (AInit demo_args build1), demo_can, []. split; [apply demo_can_init|reflexivity]. }
  cbn. repeat split; discriminate.
Qed.

(** What holds: all storage canisters of a collection get the same code, version and test mode, those of the installation. *)
Theorem C96_storage_code_partial caller self url_ok wasm a b k h :
  can_init caller self url_ok wasm (AInit a b) = Some k ->
  let g := k_storage (can_run h k) in sg_wasm g = wasm /\ sg_build g = b /\ sg_test_mode g = i_test_mode a.
Proof.
  intros H. cbv zeta. destruct (can_run_fixed h k) as (_ & -> & _). revert H.
  cbn [can_init]. destruct (init caller url_ok a) as [s0|] eqn:E; [|discriminate].
  intros H. assert (k = mkCan s0 (i_test_mode a) b
    (mkStorage (i_test_mode a) b (storage_authorized self (i_permissions a)) wasm) (log_window_ns a)) as -> by congruence.
  auto.
Qed.

(** ** C97: the log looks for duplicates over the whole time in which the ledger accepts a transaction *)

(** The full claim: the window of the log is the window of the ledger.  It is false in both directions: without a configured
    window the log gets none at all while the ledger accepts ten seconds, and a configured window is taken in milliseconds by
    the log and in nanoseconds by the ledger. *)
Theorem C97_log_window_refuted :
  (exists self k, can_reachable self k /\ k_log_window k = 0 /\ tx_window_of (k_state k) = 10000000000) /\
  (forall caller self url_ok wasm a b k w, can_init caller self url_ok wasm (AInit a b) = Some k -> i_tx_window a = Some w ->
     w <> 0 -> k_log_window k = w * 1000000 /\ tx_window_of (k_state k) = w /\ k_log_window k <> tx_window_of (k_state k)).
Proof.
  split.
  - exists [77], demo_can. split; [|split; reflexivity].
    exists admin, (fun _ => true), 1, (AInit demo_args build1), demo_can, []. split; [apply demo_can_init|reflexivity].
  - intros caller self url_ok wasm a b k w H Hw Hz. cbn [can_init] in H.
    destruct (init caller url_ok a) as [s0|] eqn:E; [|discriminate].
    assert (k = mkCan s0 (i_test_mode a) b
      (mkStorage (i_test_mode a) b (storage_authorized self (i_permissions a)) wasm) (log_window_ns a)) as -> by congruence.
    cbn [k_log_window k_state]. unfold log_window_ns. rewrite Hw.
    assert (tx_window_of s0 = w) as ->.
    { apply init_fields in E as (E & _). unfold tx_window_of. rewrite E. cbn. rewrite Hw. reflexivity. }
    repeat split; lia.
Qed.

(** What holds: the log keeps the window of its installation, and a configured one covers the ledger's for as long as that
    setting is not raised. *)
Theorem C97_log_window_partial caller self url_ok wasm a b k w h :
  can_init caller self url_ok wasm (AInit a b) = Some k -> i_tx_window a = Some w ->
  k_log_window (can_run h k) = w * 1000000 /\ (c_tx_window (cfg (k_state (can_run h k))) = c_tx_window (cfg (k_state k)) ->
     tx_window_of (k_state (can_run h k)) <= k_log_window (can_run h k)).
Proof.
  intros H Hw. destruct (can_run_fixed h k) as (_ & _ & -> & _). revert H.
  cbn [can_init]. destruct (init caller url_ok a) as [s0|] eqn:E; [|discriminate]. intros H.
  assert (k_log_window k = w * 1000000) as -> by (injection H as <-; cbn; unfold log_window_ns; rewrite Hw; reflexivity).
  split; [reflexivity|]. intros C. unfold tx_window_of. rewrite C.
  assert (k_state k = s0) as -> by (injection H as <-; reflexivity).
  assert (c_tx_window (cfg s0) = Some w) as ->; [|simpl; lia].
  apply init_fields in E as (-> & _). exact Hw.
Qed.

Definition window_args : init_args :=
  mkInit false {[admin := all_permissions]} None "SYM" "Name" None (Some 100) None None None None (Some 10) None
         (Some 5000) None None [] None None.
Example C97_example :
  match can_init admin [77] (fun _ => true) 1 (AInit window_args build1) with
  | Some k => k_log_window k = 5000000000 /\ tx_window_of (k_state k) = 5000
  | None => False
  end.
Proof. vm_compute. split; reflexivity. Qed.

(** ** C98: what the guarded reads protect is shown to nobody else *)

(** The full claim: the HTTP answers, which anybody gets, tell nothing about the permissions.  It is false: the metrics page
    is the whole table. *)
Theorem C98_metrics_refuted now mem cyc logger k h :
  http_content "/metrics" now mem cyc logger k h =
    CMetrics (mkMetrics now (k_test_mode k) (k_build k) mem cyc (perms (k_state k))).
Proof. reflexivity. Qed.

Theorem C98_stranger_refuted :
  exists self k p, can_reachable self k /\ ~ holds (k_state k) p PManageAuthorities /\
    get_user_permissions (k_state k) p admin = None /\
    forall now mem cyc logger h, exists m, http_content "/metrics" now mem cyc logger k h = CMetrics m /\
      mt_permissions m !! admin = perms (k_state k) !! admin /\ is_Some (perms (k_state k) !! admin).
Proof.
  exists [77], demo_can, bob. split.
  { exists admin, (fun _ => true), 1, (AInit demo_args build1), demo_can, []. split; [apply demo_can_init|reflexivity]. }
  split. { intros (l & E & _). vm_compute in E. discriminate. }
  split; [vm_compute; reflexivity|]. intros now mem cyc logger h. eexists. split; [reflexivity|].
  split; [reflexivity|]. eexists. vm_compute. reflexivity.
Qed.

(** What holds: apart from the permissions, the build, the mode and the router's content, nothing of the state shows: two
    canisters that agree on these give the same answers on every path that is not a page of the logger. *)
Theorem C98_rest_hidden_partial path now mem cyc logger logger' k k' h :
  perms (k_state k) = perms (k_state k') -> k_build k = k_build k' -> k_test_mode k = k_test_mode k' ->
  path <> "/logs"%string -> path <> "/traces"%string ->
  http_content path now mem cyc logger k h = http_content path now mem cyc logger' k' h.
Proof.
  intros Hp Hb Ht H1 H2. unfold http_content, http_request.
  destruct (String.eqb_spec path "/logs") as [|_]; [contradiction|].
  destruct (String.eqb_spec path "/traces") as [|_]; [contradiction|].
  destruct (String.eqb_spec path "/metrics") as [_|_].
  - unfold serve_page, metrics_of. rewrite Hp, Hb, Ht. reflexivity.
  - unfold serve_asset. destruct (_ !! path); reflexivity.
Qed.

(** Every other page shows nothing of the state, whatever it is: the logs and traces are those of the logger, the rest is the
    router's. *)
Theorem C98_only_metrics path now mem cyc now' mem' cyc' logger k k' h :
  path <> "/metrics"%string ->
  http_content path now mem cyc logger k h = http_content path now' mem' cyc' logger k' h.
Proof.
  intros H. unfold http_content, http_request. destruct (String.eqb path "/logs"); [reflexivity|].
  destruct (String.eqb path "/traces"); [reflexivity|].
  destruct (String.eqb_spec path "/metrics") as [|_]; [contradiction|].
  unfold serve_asset. destruct (_ !! path); reflexivity.
Qed.

Example C98_example :
  let k' := can_run [(from_ admin 0, CMsg mint3)] demo_can in
  perms (k_state k') = perms (k_state demo_can) /\ tokens (k_state k') <> tokens (k_state demo_can) /\
  k_build k' = k_build demo_can /\ k_test_mode k' = k_test_mode demo_can.
Proof.
  split; [vm_compute; reflexivity|]. split; [|split; reflexivity].
  intros H. apply (f_equal size) in H. vm_compute in H. discriminate.
Qed.

(** ** C99: no two users of the stable memory share a region *)

Theorem C99_regions r r' : region_id r = region_id r' -> r = r'.
Proof. destruct r, r'; intros H; try reflexivity; discriminate. Qed.

Theorem C99_index_regions r r' : iregion_id r = iregion_id r' -> r = r'.
Proof. destruct r, r'; intros H; try reflexivity; discriminate. Qed.

(** The regions written out: four and three different memories. *)
Example C99_example :
  map region_id [MUpgrades; MTokenApprovals; MCollectionApprovals; MMetadata] = [0; 1; 2; 3] /\
  map iregion_id [MIUpgrades; MICache; MIIndex] = [0; 1; 2].
Proof. split; reflexivity. Qed.

(** ** C100: the index serves one ledger for ever *)

(** The identity of an index after installation and any upgrades, refused ones included. *)
Definition index_upgrades (l : list iargs) (d : index_id) : index_id :=
  fold_left (fun d x => default d (index_upgrade x d)) l d.

Theorem C100_one_ledger caller a d l :
  index_init caller (IAInit a) = Some d ->
  index_ledger_id (index_upgrades l d) = n_ledger a /\
  (forall p, p ∈ d_authorized (index_upgrades l d) <-> p ∈ n_authorized a \/ (n_test_mode a = true /\ p = caller)) /\
  d_test_mode (index_upgrades l d) = n_test_mode a.
Proof.
  intros H. injection H as <-.
  assert (forall l d, index_ledger_id (index_upgrades l d) = index_ledger_id d /\
    d_authorized (index_upgrades l d) = d_authorized d /\ d_test_mode (index_upgrades l d) = d_test_mode d) as G.
  { clear. induction l as [|x l IH]; intros d; [auto|]. unfold index_upgrades in *. cbn [fold_left].
    destruct (IH (default d (index_upgrade x d))) as (-> & -> & ->). destruct x; auto. }
  destruct (G l (mkIndexId (n_test_mode a) (n_build a)
    (if n_test_mode a then {[caller]} ∪ list_to_set (n_authorized a) else list_to_set (n_authorized a)) (n_ledger a)))
    as (-> & -> & ->).
  cbn [index_ledger_id d_ledger d_authorized d_test_mode]. split; [reflexivity|]. split; [|reflexivity].
  intros p. destruct (n_test_mode a).
  - rewrite elem_of_union, elem_of_singleton, elem_of_list_to_set. intuition.
  - rewrite elem_of_list_to_set. intuition discriminate.
Qed.

Theorem C100_wrong_kind caller b a d : index_init caller (IAUpgrade b) = None /\ index_upgrade (IAInit a) d = None.
Proof. split; reflexivity. Qed.

Example C100_example :
  let a := mkIndexArgs true build1 [bob] [55] in
  exists d, index_init alice (IAInit a) = Some d /\
    index_ledger_id (index_upgrades [IAUpgrade build2; IAInit (mkIndexArgs false build2 [] [66])] d) = [55] /\
    d_build (index_upgrades [IAUpgrade build2; IAInit (mkIndexArgs false build2 [] [66])] d) = build2 /\
    alice ∈ d_authorized d.
Proof. eexists. split; [reflexivity|]. repeat split. Qed.

Print Assumptions C94_wrong_kind.
Print Assumptions C94_version.
Print Assumptions C95_storage_rights_refuted.
Print Assumptions C95_storage_rights_partial.
Print Assumptions C96_storage_code_refuted.
Print Assumptions C96_storage_code_partial.
Print Assumptions C97_log_window_refuted.
Print Assumptions C97_log_window_partial.
Print Assumptions C98_metrics_refuted.
Print Assumptions C98_stranger_refuted.
Print Assumptions C98_rest_hidden_partial.
Print Assumptions C98_only_metrics.
Print Assumptions C99_regions.
Print Assumptions C99_index_regions.
Print Assumptions C100_one_ledger.
Print Assumptions C100_wrong_kind.
