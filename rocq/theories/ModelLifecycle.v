(** Installation, upgrade, and the garbage collection job. *)
From Verif Require Import Base ModelState.

(** [InitArgs], src/core_nft/src/lifecycle/init.rs:22-44. *)
Record init_args := mkInit {
  i_test_mode : bool;
  i_permissions : gmap principal (list permission);
  i_description : option string;
  i_symbol : string;
  i_name : string;
  i_logo : option string;
  i_supply_cap : option N;
  i_max_query : option N;
  i_max_update : option N;
  i_max_take : option N;
  i_default_take : option N;
  i_max_memo : option N;
  i_atomic : option bool;
  i_tx_window : option N;
  i_drift : option N;
  i_threshold : option N;
  i_collection_metadata : list (string * value);
  i_max_appr : option N;
  i_max_revoke : option N
}.

(** Settings part of [Data::new] with its parameter order, src/core_nft/src/state.rs:91-111,153-175. *)
Definition data_new_cfg (description : option string) (symbol name : string) (logo : option string)
  (supply_cap max_query max_update max_take default_take max_memo : option N) (atomic : option bool)
  (tx_window max_canister_storage_threshold permitted_drift : option N) (max_appr max_revoke : option N) : config :=
  mkCfg description symbol name logo supply_cap max_query max_update max_take default_take max_memo atomic
        tx_window permitted_drift max_canister_storage_threshold max_appr max_revoke.

(** The call of [Data::new] in [init] with its argument order, src/core_nft/src/lifecycle/init.rs:70-90. *)
Definition init_cfg (a : init_args) : config :=
  data_new_cfg (i_description a) (i_symbol a) (i_name a) (i_logo a) (i_supply_cap a) (i_max_query a)
    (i_max_update a) (i_max_take a) (i_default_take a) (i_max_memo a) (i_atomic a)
    (i_tx_window a) (i_drift a) (i_threshold a) (i_max_appr a) (i_max_revoke a).

(** Grants of the test mode, src/core_nft/src/lifecycle/init.rs:92-105. *)
Definition test_mode_grants (p : principal) (m : gmap principal (list permission)) :=
  perm_grant p PReadUploads (perm_grant p PManageAuthorities (perm_grant p PUpdateUploads
    (perm_grant p PUpdateCollectionMetadata (perm_grant p PUpdateMetadata (perm_grant p PMinting m))))).

(** [init], src/core_nft/src/lifecycle/init.rs:46-188, with [Data::new], src/core_nft/src/state.rs:91-176; [None] is a trap.
    [url_ok] is the answer of [url::Url::parse] on the logo (external crate).  [collection_metadata] is never read. *)
Definition init (caller : principal) (url_ok : string -> bool) (a : init_args) : option state :=
  if match i_logo a with Some l => negb (url_ok l) | None => false end then None
  else
  match match i_tx_window a with Some w => u64_try w | None => Some 0 end with
  | None => None
  | Some _ =>
    if bool_decide (i_max_revoke a = Some 0) then None
    else if bool_decide (i_max_appr a = Some 0) then None
    else
    Some (mkSt (init_cfg a)
               (if i_test_mode a then test_mode_grants caller (i_permissions a) else i_permissions a)
               ∅ ∅ 1 ∅ [] ∅ ∅ ∅ ∅ ∅ ∅ [] 0 ∅ 0)
  end.

(** Settings part of [Clone for Data], src/core_nft/src/state.rs:230-256. *)
Definition clone_cfg (c : config) : config :=
  mkCfg (c_description c) (c_symbol c) (c_name c) (c_logo c) (c_supply_cap c) (c_max_query c) (c_max_update c)
        (c_max_take c) (c_default_take c) (c_max_memo c) (c_atomic c) (c_tx_window c) (c_drift c) (c_threshold c)
        (c_max_appr c) (c_max_revoke c).

(** Derived [Clone for RuntimeState] with [Clone for Data], src/core_nft/src/state.rs:29-36,230-256: what
    [init_canister(state.clone())] installs, src/core_nft/src/lifecycle/post_upgrade.rs:53.  The stable maps
    ([tok_appr], [col_appr], [metas]) and the log are separate and not copied. *)
Definition clone_state (s : state) : state :=
  mkSt (clone_cfg (cfg s)) (perms s) (tokens s) (by_owner s) (last_id s) (redirs s) (subs s) (tok_appr s) (col_appr s)
       (metas s) (windows s) (guards s) (files s) (log s) (lcalls s) (pend s) (next_pend s).

(** [pre_upgrade] and [post_upgrade], src/core_nft/src/lifecycle/pre_upgrade.rs:10-27,
    src/core_nft/src/lifecycle/post_upgrade.rs:24-65: the whole [RuntimeState] (with the set of lock holders and the rate
    limiter) is serialized, read back and cloned, the stable maps stay, the calls that were waiting for a reply are lost.
    Simplification: serialization is the identity (bity_ic_serializer, external). *)
Definition upgrade (s : state) : state := set_pend ∅ (clone_state s).

(** DAY_IN_MS (crate bity_ic_canister_time, external), used in src/core_nft/src/jobs/upload_garbage_collector.rs:21-44. *)
Definition day_in_ms : N := 86400000.

(** [upload_garbage_collector], src/core_nft/src/jobs/upload_garbage_collector.rs:21-44: the paths for which a cancel
    call is sent to the storage canister (u64 addition wraps). *)
Definition gc_selected (now : N) (s : state) : list string :=
  map fst (filter (fun kv => now < add64 (u_init (snd kv)) day_in_ms) (map_to_list (files s))).
