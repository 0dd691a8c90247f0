(** Installation and upgrade as the platform sees them: the kinds of argument, the version reported, what storage canisters
    are created with, what the transaction log is configured with, the content of the metrics page, and the stable memory
    regions of both canisters. *)
From Verif Require Import Base ModelPrincipal ModelState ModelIcrc7 ModelIcrc37 ModelManagement ModelLifecycle ModelStep
  ModelHttp.

(** [BuildVersion] (crate bity_ic_types) and the commit hash of [InitArgs] and [UpgradeArgs],
    src/core_nft/src/lifecycle/init.rs:25-26, src/core_nft/src/lifecycle/post_upgrade.rs:18-22. *)
Record build := mkBuild { b_version : N * N * N; b_commit : string }.

(** [Args], src/core_nft/src/lifecycle/mod.rs:18-22. *)
Inductive args := AInit (a : init_args) (b : build) | AUpgrade (b : build).

(** The arguments a storage canister is installed with ([ArgsStorage::Init]) and the code kept by the manager,
    src/core_nft/src/state.rs:126-151.  [sg_wasm] stands for the bytes of [STORAGE_WASM] of the module that ran [init]
    (src/core_nft/src/state.rs:24,150). *)
Record storage_args := mkStorage {
  sg_test_mode : bool;
  sg_build : build;
  sg_authorized : list principal;
  sg_wasm : N
}.

(** The canister with the parts of [RuntimeState] that the calls of [op] do not read: [env] (test mode, version, commit hash)
    and [sub_canister_manager]'s arguments, src/core_nft/src/state.rs:29-36,64-87; and the duplicate window the transaction
    log was created with, src/core_nft/src/lifecycle/init.rs:107-110,160-161. *)
Record canister := mkCan {
  k_state : state;
  k_test_mode : bool;
  k_build : build;
  k_storage : storage_args;
  k_log_window : N
}.

(** Principals passed on to storage canisters, src/core_nft/src/state.rs:112-124,132-136: the holders of ManageAuthorities
    among the permissions of the arguments, then the canister itself.  The order of the hash map does not matter for what is
    proved. *)
Definition storage_authorized (self : principal) (m : gmap principal (list permission)) : list principal :=
  map fst (filter (fun kv => PManageAuthorities ∈ snd kv) (map_to_list m)) ++ [self].

(** [Duration::from_millis(tx_window)] or no duration, in nanoseconds, src/core_nft/src/lifecycle/init.rs:107-110. *)
Definition log_window_ns (a : init_args) : N :=
  match i_tx_window a with Some w => w * 1000000 | None => 0 end.

(** [init] on its argument, src/core_nft/src/lifecycle/init.rs:46-188; [None] is the panic, [wasm] the storage code compiled
    into the module. *)
Definition can_init (caller self : principal) (url_ok : string -> bool) (wasm : N) (x : args) : option canister :=
  match x with
  | AUpgrade _ => None
  | AInit a b =>
      match init caller url_ok a with
      | None => None
      | Some s =>
          Some (mkCan s (i_test_mode a) b
                      (mkStorage (i_test_mode a) b (storage_authorized self (i_permissions a)) wasm)
                      (log_window_ns a))
      end
  end.

(** [post_upgrade] on its argument, src/core_nft/src/lifecycle/post_upgrade.rs:24-65: version and commit hash are set, the
    rest of the state is the one stored by [pre_upgrade]; the storage code [wasm] of the new module is not used.  [None] is
    the panic; the platform then keeps the old module and state. *)
Definition can_upgrade (wasm : N) (x : args) (k : canister) : option canister :=
  match x with
  | AInit _ _ => None
  | AUpgrade b => Some (mkCan (upgrade (k_state k)) (k_test_mode k) b (k_storage k) (k_log_window k))
  end.

(** A message to the canister: a call of [op] or an upgrade with its argument and the storage code of the new module
    (see [can_upgrade]). *)
Inductive cop := CMsg (o : op) | CUpgrade (wasm : N) (x : args).

(** One message (see [step] and [can_upgrade]); [CMsg OUpgrade] is no message and changes nothing. *)
Definition can_step (e : env) (c : cop) (k : canister) : canister * answer :=
  match c with
  | CMsg OUpgrade => (k, ATrap)
  | CMsg o =>
      let r := step e o (k_state k) in
      (mkCan (fst r) (k_test_mode k) (k_build k) (k_storage k) (k_log_window k), snd r)
  | CUpgrade wasm x => match can_upgrade wasm x k with Some k' => (k', AOk) | None => (k, ATrap) end
  end.

(** Execution of a history of messages (see [can_step]). *)
Fixpoint can_run (h : list (env * cop)) (k : canister) : canister :=
  match h with
  | [] => k
  | (e, c) :: r => can_run r (fst (can_step e c k))
  end.

(** [Metrics] and [CanisterInfo], src/core_nft/src/state.rs:265-278. *)
Record metrics := mkMetrics {
  mt_now : N;
  mt_test_mode : bool;
  mt_build : build;
  mt_memory : N;
  mt_cycles : N;
  mt_permissions : gmap principal (list permission)
}.

(** [RuntimeState::metrics], src/core_nft/src/state.rs:49-61; memory and cycles are answers of the platform. *)
Definition metrics_of (now memory cycles : N) (k : canister) : metrics :=
  mkMetrics now (k_test_mode k) (k_build k) memory cycles (perms (k_state k)).

(** Content of a response: of the metrics page, of a page of the logger [logger] (external crate), or of a redirection.
    src/core_nft/src/queries/http_request.rs:19-24,66-69. *)
Inductive content := CMetrics (m : metrics) | CLog (entries : list string) | CLocation (to : string) | CNone.

(** What [http_request] answers to anybody, src/core_nft/src/queries/http_request.rs:15-25: the query has no guard and does
    not read the caller. *)
Definition http_content (path : string) (now memory cycles : N) (logger : page -> list string) (k : canister) (h : http)
  : content :=
  match http_request path h with
  | RPage PageMetrics _ _ => CMetrics (metrics_of now memory cycles k)
  | RPage p _ _ => CLog (logger p)
  | RRedirect to _ => CLocation to
  | RFail => CNone
  end.

(** Users of the stable memory of the collection canister, src/core_nft/src/memory.rs:6-37. *)
Inductive region := MUpgrades | MTokenApprovals | MCollectionApprovals | MMetadata.
(** Their memory ids, src/core_nft/src/memory.rs:6-10. *)
Definition region_id (r : region) : N :=
  match r with MUpgrades => 0 | MTokenApprovals => 1 | MCollectionApprovals => 2 | MMetadata => 3 end.
(** Users of the stable memory of the index canister, src/index_icrc7/src/memory.rs:6-32. *)
Inductive iregion := MIUpgrades | MICache | MIIndex.
(** Their memory ids, src/index_icrc7/src/memory.rs:6-8. *)
Definition iregion_id (r : iregion) : N := match r with MIUpgrades => 0 | MICache => 1 | MIIndex => 2 end.

(** [InitArgs] of the index canister, src/index_icrc7/src/lifecycle/mod.rs:26-32. *)
Record index_args := mkIndexArgs {
  n_test_mode : bool;
  n_build : build;
  n_authorized : list principal;
  n_ledger : principal
}.

(** The fields of the index canister's [RuntimeState] that indexing does not change, src/index_icrc7/src/state.rs:12-15,46-51. *)
Record index_id := mkIndexId {
  d_test_mode : bool;
  d_build : build;
  d_authorized : gset principal;
  d_ledger : principal
}.

(** [Args] of the index canister, src/index_icrc7/src/lifecycle/mod.rs:19-22. *)
Inductive iargs := IAInit (a : index_args) | IAUpgrade (b : build).

(** [init] of the index canister, src/index_icrc7/src/lifecycle/init.rs:8-42, src/index_icrc7/src/state.rs:55-62. *)
Definition index_init (caller : principal) (x : iargs) : option index_id :=
  match x with
  | IAUpgrade _ => None
  | IAInit a =>
      Some (mkIndexId (n_test_mode a) (n_build a)
              (if n_test_mode a then {[caller]} ∪ list_to_set (n_authorized a) else list_to_set (n_authorized a))
              (n_ledger a))
  end.

(** [post_upgrade] of the index canister, src/index_icrc7/src/lifecycle/post_upgrade.rs:12-47. *)
Definition index_upgrade (x : iargs) (d : index_id) : option index_id :=
  match x with
  | IAInit _ => None
  | IAUpgrade b => Some (mkIndexId (d_test_mode d) b (d_authorized d) (d_ledger d))
  end.

(** [ledger_id], src/index_icrc7/src/queries/queries.rs:14-18. *)
Definition index_ledger_id (d : index_id) : principal := d_ledger d.
