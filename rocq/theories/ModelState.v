(** State of the NFT canister and the small functions on it: permissions, rate limiter, management lock,
    transaction log, memo check, metadata store. *)
From stdpp Require Import pretty.
From Verif Require Import Base.

(** src/core_nft/src/types/permissions.rs:6-13 *)
Inductive permission :=
| PMinting | PManageAuthorities | PUpdateMetadata | PUpdateCollectionMetadata | PReadUploads | PUpdateUploads.
(** Derived [PartialEq], src/core_nft/src/types/permissions.rs:5. *)
Global Instance permission_eqdec : EqDecision permission.
Proof. solve_decision. Defined.

(** Settings of the collection: the option fields of [Data], src/core_nft/src/state.rs:64-87, and
    [InitApprovalsArg], src/core_nft/src/state.rs:259-262 (last two fields). *)
Record config := mkCfg {
  c_description : option string;
  c_symbol : string;
  c_name : string;
  c_logo : option string;
  c_supply_cap : option N;
  c_max_query : option N;
  c_max_update : option N;
  c_max_take : option N;
  c_default_take : option N;
  c_max_memo : option N;
  c_atomic : option bool;
  c_tx_window : option N;
  c_drift : option N;
  c_threshold : option N;
  c_max_appr : option N;
  c_max_revoke : option N
}.

(** [Icrc7Token], src/core_nft/src/types/nft.rs:10-14. *)
Record token := mkTok { t_id : N; t_owner : account }.

(** [Approval], src/core_nft/src/types/icrc37.rs:19-31. *)
Record approval := mkAppr {
  a_spender : account;
  a_from : account;
  a_expires : option N;
  a_created : N;
  a_memo : option bytes
}.

(** [TokenApprovalValue] = [HashMap<WrappedAccount, Approval>], src/core_nft/src/types/icrc37.rs:42; the account of
    each entry is the key object as it was first inserted. *)
Notation appmap := (gmap acckey (account * approval)) (only parsing).

(** [HashMap::insert]: an equal key already present keeps its key object.
    src/core_nft/src/updates/icrc37.rs:200-203,368-371. *)
Definition appmap_insert (spender : account) (a : approval) (m : appmap) : appmap :=
  match m !! akey spender with
  | Some (k, _) => <[akey spender := (k, a)]> m
  | None => <[akey spender := (spender, a)]> m
  end.

(** A logged transaction: [ICRC7Transaction] and [ICRC37Transaction] with their data, as constructed in
    src/core_nft/src/updates/icrc7.rs:67-79, icrc37.rs:166-179,334-347,482-495,609-622,776-789,
    management.rs:177-189,281-296,343-355.  Fields that a kind does not have are [None]. *)
Record tx := mkTx {
  tx_btype : string;
  tx_time : N;
  tx_tid : option N;
  tx_from : option account;
  tx_to : option account;
  tx_spender : option account;
  tx_exp : option N;
  tx_meta : option value;
  tx_memo : option bytes;
  tx_created : option N
}.

(** Answers of [icrc3_add_transaction] (external crate bity_ic_icrc3): an index, [DuplicateTransaction],
    [Icrc3Error(text)], or another error variant with its text.
    src/core_nft/src/updates/icrc7.rs:84-112, src/core_nft/src/updates/icrc37.rs:791-812. *)
Inductive logans := LOk (index : N) | LDup (duplicate_of : N) | LErr (msg : string) | LOther (msg : string).

(** [UploadState] (bity_ic_storage_canister_api), src/core_nft/src/updates/management.rs:418-420. *)
Inductive upload_state := UInit | UInProgress | UFinalized.
(** Comparison of upload states, used by the model only; see [upload_state]. *)
Global Instance upload_state_eqdec : EqDecision upload_state.
Proof. solve_decision. Defined.

(** [InternalFilestorageData], src/core_nft/src/state.rs:281-286. *)
Record upload := mkUp { u_init : N; u_state : upload_state; u_canister : principal; u_path : string }.

(** What an upload call remembers across its await, one constructor per call:
    src/core_nft/src/updates/management.rs:383-391 (init: path, snapshot of the storage canisters),
    415-452 (store), 475-515 (finalize), 594-631 (cancel). *)
Inductive pending :=
| PInit (caller : principal) (path : string) (subs : list principal)
| PStore (caller : principal) (key : string) (init : N) (canister : principal) (path : string)
| PFinalize (caller : principal) (key : string) (init : N) (canister : principal) (path : string)
| PCancel (caller : principal) (key : string).

(** [RuntimeState] and [Data] (src/core_nft/src/state.rs:29-47,64-87), the stable maps of approvals
    (src/core_nft/src/types/icrc37.rs:14-17) and metadata (src/core_nft/src/types/metadata.rs:13-15), the transaction log
    (blocks with the index answered for them; external crate), and the calls waiting for a reply.
    [lcalls] is a ghost counter of log attempts that lets the oracle answer each attempt differently. *)
Record state := mkSt {
  cfg : config;
  perms : gmap principal (list permission);
  tokens : gmap N token;
  by_owner : gmap acckey (list N);
  last_id : N;
  redirs : gmap string string;
  subs : list principal;
  tok_appr : gmap N appmap;
  col_appr : gmap acckey appmap;
  metas : gmap N (gmap string value);
  windows : gmap N (list N);
  guards : gset principal;
  files : gmap string upload;
  log : list (N * tx);
  lcalls : N;
  pend : gmap N pending;
  next_pend : N
}.

(** Field update of [cfg] (assignment to the field in the Rust code, see [state]). *)
Definition set_cfg (v : config) (s : state) : state :=
  mkSt v (perms s) (tokens s) (by_owner s) (last_id s) (redirs s) (subs s) (tok_appr s) (col_appr s) (metas s) (windows s) (guards s) (files s) (log s) (lcalls s) (pend s) (next_pend s).
(** Field update of [perms] (assignment to the field in the Rust code, see [state]). *)
Definition set_perms (v : gmap principal (list permission)) (s : state) : state :=
  mkSt (cfg s) v (tokens s) (by_owner s) (last_id s) (redirs s) (subs s) (tok_appr s) (col_appr s) (metas s) (windows s) (guards s) (files s) (log s) (lcalls s) (pend s) (next_pend s).
(** Field update of [tokens] (assignment to the field in the Rust code, see [state]). *)
Definition set_tokens (v : gmap N token) (s : state) : state :=
  mkSt (cfg s) (perms s) v (by_owner s) (last_id s) (redirs s) (subs s) (tok_appr s) (col_appr s) (metas s) (windows s) (guards s) (files s) (log s) (lcalls s) (pend s) (next_pend s).
(** Field update of [by_owner] (assignment to the field in the Rust code, see [state]). *)
Definition set_by_owner (v : gmap acckey (list N)) (s : state) : state :=
  mkSt (cfg s) (perms s) (tokens s) v (last_id s) (redirs s) (subs s) (tok_appr s) (col_appr s) (metas s) (windows s) (guards s) (files s) (log s) (lcalls s) (pend s) (next_pend s).
(** Field update of [last_id] (assignment to the field in the Rust code, see [state]). *)
Definition set_last_id (v : N) (s : state) : state :=
  mkSt (cfg s) (perms s) (tokens s) (by_owner s) v (redirs s) (subs s) (tok_appr s) (col_appr s) (metas s) (windows s) (guards s) (files s) (log s) (lcalls s) (pend s) (next_pend s).
(** Field update of [redirs] (assignment to the field in the Rust code, see [state]). *)
Definition set_redirs (v : gmap string string) (s : state) : state :=
  mkSt (cfg s) (perms s) (tokens s) (by_owner s) (last_id s) v (subs s) (tok_appr s) (col_appr s) (metas s) (windows s) (guards s) (files s) (log s) (lcalls s) (pend s) (next_pend s).
(** Field update of [subs] (assignment to the field in the Rust code, see [state]). *)
Definition set_subs (v : list principal) (s : state) : state :=
  mkSt (cfg s) (perms s) (tokens s) (by_owner s) (last_id s) (redirs s) v (tok_appr s) (col_appr s) (metas s) (windows s) (guards s) (files s) (log s) (lcalls s) (pend s) (next_pend s).
(** Field update of [tok_appr] (assignment to the field in the Rust code, see [state]). *)
Definition set_tok_appr (v : gmap N appmap) (s : state) : state :=
  mkSt (cfg s) (perms s) (tokens s) (by_owner s) (last_id s) (redirs s) (subs s) v (col_appr s) (metas s) (windows s) (guards s) (files s) (log s) (lcalls s) (pend s) (next_pend s).
(** Field update of [col_appr] (assignment to the field in the Rust code, see [state]). *)
Definition set_col_appr (v : gmap acckey appmap) (s : state) : state :=
  mkSt (cfg s) (perms s) (tokens s) (by_owner s) (last_id s) (redirs s) (subs s) (tok_appr s) v (metas s) (windows s) (guards s) (files s) (log s) (lcalls s) (pend s) (next_pend s).
(** Field update of [metas] (assignment to the field in the Rust code, see [state]). *)
Definition set_metas (v : gmap N (gmap string value)) (s : state) : state :=
  mkSt (cfg s) (perms s) (tokens s) (by_owner s) (last_id s) (redirs s) (subs s) (tok_appr s) (col_appr s) v (windows s) (guards s) (files s) (log s) (lcalls s) (pend s) (next_pend s).
(** Field update of [windows] (assignment to the field in the Rust code, see [state]). *)
Definition set_windows (v : gmap N (list N)) (s : state) : state :=
  mkSt (cfg s) (perms s) (tokens s) (by_owner s) (last_id s) (redirs s) (subs s) (tok_appr s) (col_appr s) (metas s) v (guards s) (files s) (log s) (lcalls s) (pend s) (next_pend s).
(** Field update of [guards] (assignment to the field in the Rust code, see [state]). *)
Definition set_guards (v : gset principal) (s : state) : state :=
  mkSt (cfg s) (perms s) (tokens s) (by_owner s) (last_id s) (redirs s) (subs s) (tok_appr s) (col_appr s) (metas s) (windows s) v (files s) (log s) (lcalls s) (pend s) (next_pend s).
(** Field update of [files] (assignment to the field in the Rust code, see [state]). *)
Definition set_files (v : gmap string upload) (s : state) : state :=
  mkSt (cfg s) (perms s) (tokens s) (by_owner s) (last_id s) (redirs s) (subs s) (tok_appr s) (col_appr s) (metas s) (windows s) (guards s) v (log s) (lcalls s) (pend s) (next_pend s).
(** Field update of [log] (assignment to the field in the Rust code, see [state]). *)
Definition set_log (v : list (N * tx)) (s : state) : state :=
  mkSt (cfg s) (perms s) (tokens s) (by_owner s) (last_id s) (redirs s) (subs s) (tok_appr s) (col_appr s) (metas s) (windows s) (guards s) (files s) v (lcalls s) (pend s) (next_pend s).
(** Field update of [lcalls] (assignment to the field in the Rust code, see [state]). *)
Definition set_lcalls (v : N) (s : state) : state :=
  mkSt (cfg s) (perms s) (tokens s) (by_owner s) (last_id s) (redirs s) (subs s) (tok_appr s) (col_appr s) (metas s) (windows s) (guards s) (files s) (log s) v (pend s) (next_pend s).
(** Field update of [pend] (assignment to the field in the Rust code, see [state]). *)
Definition set_pend (v : gmap N pending) (s : state) : state :=
  mkSt (cfg s) (perms s) (tokens s) (by_owner s) (last_id s) (redirs s) (subs s) (tok_appr s) (col_appr s) (metas s) (windows s) (guards s) (files s) (log s) (lcalls s) v (next_pend s).
(** Field update of [next_pend] (assignment to the field in the Rust code, see [state]). *)
Definition set_next_pend (v : N) (s : state) : state :=
  mkSt (cfg s) (perms s) (tokens s) (by_owner s) (last_id s) (redirs s) (subs s) (tok_appr s) (col_appr s) (metas s) (windows s) (guards s) (files s) (log s) (lcalls s) (pend s) v.

(** Environment of one message: caller ([ic_cdk::api::msg_caller]), time ([ic_cdk::api::time]), the canister's own
    principal text, and the answers of the transaction log; read e.g. in src/core_nft/src/updates/icrc7.rs:13-16,84. *)
Record env := mkEnv { e_caller : principal; e_now : N; e_log : N -> tx -> logans }.

(** [icrc3_add_transaction], called in src/core_nft/src/updates/icrc7.rs:84 and others: on success the block is part of the
    log.  The implementation is external; the oracle decides. *)
Definition add_transaction (e : env) (t : tx) (s : state) : state * logans :=
  let ans := e_log e (lcalls s) t in
  let s1 := set_lcalls (lcalls s + 1) s in
  match ans with
  | LOk i => (set_log (log s1 ++ [(i, t)]) s1, ans)
  | _ => (s1, ans)
  end.

(** Text of a log error ([Icrc3Error] displayed), src/core_nft/src/updates/icrc7.rs:110. *)
Definition logans_msg (a : logans) : string :=
  match a with LErr m => m | LOther m => m | LDup _ => "duplicate" | LOk _ => "" end.

(** [PermissionManager::has_permission], src/core_nft/src/types/permissions.rs:35-40. *)
Definition has_permission (s : state) (p : principal) (perm : permission) : bool :=
  match perms s !! p with
  | Some l => bool_decide (perm ∈ l)
  | None => false
  end.

(** [PermissionManager::grant_permission], src/core_nft/src/types/permissions.rs:42-47. *)
Definition perm_grant (p : principal) (perm : permission) (m : gmap principal (list permission)) :=
  <[p := default [] (m !! p) ++ [perm]]> m.

(** [PermissionManager::revoke_permission], src/core_nft/src/types/permissions.rs:49-53. *)
Definition perm_revoke (p : principal) (perm : permission) (m : gmap principal (list permission)) :=
  match m !! p with
  | Some l => <[p := filter (fun q => q <> perm) l]> m
  | None => m
  end.

(** SLIDING_WINDOW_CALLS and SLIDING_WINDOW_DURATION_NS, src/core_nft/src/guards.rs:10-11. *)
Definition window_calls : N := 5.
(** See [window_calls]. *)
Definition window_ns : N := 60000000.

(** [guard_sliding_window], src/core_nft/src/guards.rs:47-73; [false] is the [Err] answer. *)
Definition guard_sliding_window (now tid : N) (s : state) : state * bool :=
  let hist := default [] (windows s !! tid) in
  let kept := filter (fun t => sat_sub now t < window_ns) hist in
  if window_calls <=? nlen kept then (set_windows (<[tid := kept]> (windows s)) s, false)
  else (set_windows (<[tid := kept ++ [now]]> (windows s)) s, true).

(** Message of the rate limiter for [tid] at [now], from the history the limiter left behind when it refused: the time
    until the oldest call in it leaves the window.  src/core_nft/src/guards.rs:60-67. *)
Definition rate_limit_msg (now tid : N) (s : state) : string :=
  let oldest := default 0 (head (default [] (windows s !! tid))) in
  ("Rate limit exceeded. You can make another call in " ++ pretty (sub64 window_ns (sub64 now oldest)) ++ " milliseconds")%string.

(** MAX_CONCURRENT, src/core_nft/src/guards.rs:9. *)
Definition max_concurrent : nat := 1.

(** [GuardManagement::new], src/core_nft/src/guards.rs:25-38; [None] is the [Err] answer. *)
Definition guard_new (p : principal) (s : state) : option state :=
  if (max_concurrent <=? size (guards s))%nat then None
  else Some (set_guards ({[p]} ∪ guards s) s).

(** [Drop for GuardManagement], src/core_nft/src/guards.rs:41-45. *)
Definition guard_drop (p : principal) (s : state) : state := set_guards (guards s ∖ {[p]}) s.

(** Default limits, src/core_nft/src/types/icrc7.rs:8-15. *)
Definition default_tx_window : N := 10000000000.
(** src/core_nft/src/types/icrc7.rs:9 *)
Definition default_drift : N := 50000000.
(** src/core_nft/src/types/icrc7.rs:10 *)
Definition default_take : N := 100.
(** src/core_nft/src/types/icrc7.rs:11 *)
Definition default_max_update : N := 100.
(** src/core_nft/src/types/icrc7.rs:12 *)
Definition default_supply_cap : N := 10000.
(** src/core_nft/src/types/icrc7.rs:13 *)
Definition default_max_memo : N := 1000000.
(** src/core_nft/src/types/icrc7.rs:14 *)
Definition default_max_query : N := 100.
(** src/core_nft/src/types/icrc7.rs:15 *)
Definition default_max_take : N := 100.
(** DEFAULT_MAX_APPROVALS_PER_TOKEN_OR_COLLECTION, src/core_nft/src/types/icrc37.rs:12 *)
Definition default_max_appr : N := 10.

(** [check_memo], src/core_nft/src/utils.rs:5-28: [None] is the panic of [unwrap], [Some false] the [Err]. *)
Definition check_memo (s : state) (memo : option bytes) : option bool :=
  match memo with
  | None => Some true
  | Some m =>
      match usize_try (default default_max_memo (c_max_memo (cfg s))) with
      | None => None
      | Some mx => Some (nlen m <=? mx)
      end
  end.

(** [Data::owner_of], src/core_nft/src/state.rs:191-195. *)
Definition owner_of (s : state) (tid : N) : option account := t_owner <$> tokens s !! tid.

(** Values that [CustomValue::encode] can store: naturals below 2^64, integers in the i64 range; otherwise
    [encode(..).expect] panics.  src/core_nft/src/types/value_custom.rs:25-66, metadata.rs:23-27. *)
Fixpoint encodable (v : value) : bool :=
  match v with
  | VNat n => n <? two64
  | VInt z => ((-9223372036854775808 <=? z) && (z <=? 9223372036854775807))%Z
  | VArray l => forallb encodable l
  | VMap l => forallb (fun kv => encodable (snd kv)) l
  | _ => true
  end.

(** [Metadata::insert_data] for a token, src/core_nft/src/types/metadata.rs:108-127; [None] is the panic of the
    encoder (value out of range) or of the key encoder (src/core_nft/src/types/wrapped_types.rs:33-42). *)
Definition insert_data (tid : N) (k : string) (v : value) (m : gmap N (gmap string value))
  : option (gmap N (gmap string value)) :=
  if encodable v && (tid <? two64)
  then Some (<[tid := <[k := v]> (default ∅ (m !! tid))]> m)
  else None.

(** Loop of [Icrc7Token::add_metadata], src/core_nft/src/types/nft.rs:46-62. *)
Fixpoint add_metadata (tid : N) (kvs : list (string * value)) (m : gmap N (gmap string value))
  : option (gmap N (gmap string value)) :=
  match kvs with
  | [] => Some m
  | (k, v) :: r =>
      match insert_data tid k v m with
      | Some m' => add_metadata tid r m'
      | None => None
      end
  end.

(** Order of a [BTreeMap<String, _>]: byte-wise on the keys (standard library). *)
Definition key_le (a b : string * value) : Prop := String.leb (fst a) (fst b) = true.
(** See [key_le]. *)
Global Instance key_le_dec : forall a b, Decision (key_le a b).
Proof. intros a b. unfold key_le. apply _. Defined.

(** Iteration over a [BTreeMap] in key order, src/core_nft/src/types/metadata.rs:160,230, nft.rs:34. *)
Definition sorted_pairs (m : gmap string value) : list (string * value) := merge_sort key_le (map_to_list m).

(** [collect] of pairs into a [BTreeMap]: the last value of a repeated key wins.
    src/core_nft/src/types/nft.rs:73. *)
Definition collect_map (kvs : list (string * value)) : gmap string value := list_to_map (rev kvs).

(** [Metadata::replace_all_data] after [replace_metadata], src/core_nft/src/types/metadata.rs:225-233,
    src/core_nft/src/types/nft.rs:64-77. *)
Definition replace_metadata (tid : N) (kvs : list (string * value)) (m : gmap N (gmap string value))
  : option (gmap N (gmap string value)) :=
  add_metadata tid (sorted_pairs (collect_map kvs)) (delete tid m).

(** [Metadata::get_all_data] of a token, [unwrap_or_default], as a value for the log.
    src/core_nft/src/types/metadata.rs:146-176, src/core_nft/src/updates/management.rs:247-277. *)
Definition meta_value (tid : N) (m : gmap N (gmap string value)) : value :=
  VMap (sorted_pairs (default ∅ (m !! tid))).
