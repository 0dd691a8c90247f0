(** Management calls: src/core_nft/src/updates/management.rs *)
From Verif Require Import Base ModelPrincipal ModelState ModelIcrc7.

(** Outcome of a guarded management call: rejected by the permission guard of the [#[update(guard = ..)]] attribute,
    or the body's answer; e.g. src/core_nft/src/updates/management.rs:28-33, src/core_nft/src/guards.rs:75-125. *)
Inductive mres (A : Type) := MReject (msg : string) | MOk (a : A) | MErr (e : err).
Arguments MReject {A} _.
Arguments MOk {A} _.
Arguments MErr {A} _.

(** Permission guard of a call, src/core_nft/src/guards.rs:75-125: no permission, no execution. *)
Definition with_permission {A} (perm : permission) (msg : string) (e : env) (s : state)
  (body : option (state * mres A)) : option (state * mres A) :=
  if has_permission s (e_caller e) perm then body else Some (s, MReject msg).

(** A call without awaits under the management lock: [GuardManagement::new] on entry, [Drop] on every return.
    e.g. src/core_nft/src/updates/management.rs:128-129. *)
Definition with_lock {A} (e : env) (s : state) (body : state -> option (state * mres A))
  : option (state * mres A) :=
  match guard_new (e_caller e) s with
  | None => Some (s, MErr EConcurrentManagementCall)
  | Some s1 =>
      match body s1 with
      | None => None
      | Some (s2, r) => Some (guard_drop (e_caller e) s2, r)
      end
  end.

(** [update_collection_metadata::Args], src/core_nft/src/types/management.rs:93-110.  The field
    [collection_metadata] exists but is never read. *)
Record collection_update := mkCU {
  cu_description : option string;
  cu_symbol : option string;
  cu_name : option string;
  cu_logo : option string;
  cu_supply_cap : option N;
  cu_max_query : option N;
  cu_max_update : option N;
  cu_max_take : option N;
  cu_default_take : option N;
  cu_max_memo : option N;
  cu_atomic : option bool;
  cu_tx_window : option N;
  cu_drift : option N;
  cu_threshold : option N;
  cu_collection_metadata : option (list (string * value))
}.

(** [if let Some(x) = req.field { state.data.field = Some(x) }], src/core_nft/src/updates/management.rs:36-118. *)
Definition upd {A} (new old : option A) : option A := match new with Some x => Some x | None => old end.

(** All assignments of [update_collection_metadata], src/core_nft/src/updates/management.rs:36-118. *)
Definition apply_update (u : collection_update) (c : config) : config :=
  mkCfg (upd (cu_description u) (c_description c))
        (default (c_symbol c) (cu_symbol u))
        (default (c_name c) (cu_name u))
        (upd (cu_logo u) (c_logo c))
        (upd (cu_supply_cap u) (c_supply_cap c))
        (upd (cu_max_query u) (c_max_query c))
        (upd (cu_max_update u) (c_max_update c))
        (upd (cu_max_take u) (c_max_take c))
        (upd (cu_default_take u) (c_default_take c))
        (upd (cu_max_memo u) (c_max_memo c))
        (upd (cu_atomic u) (c_atomic c))
        (upd (cu_tx_window u) (c_tx_window c))
        (upd (cu_drift u) (c_drift c))
        (upd (cu_threshold u) (c_threshold c))
        (c_max_appr c) (c_max_revoke c).

(** [update_collection_metadata], src/core_nft/src/updates/management.rs:28-121. *)
Definition update_collection_metadata (e : env) (s : state) (u : collection_update) : option (state * mres unit) :=
  with_permission PUpdateCollectionMetadata "Caller does not have update collection metadata permission" e s
   (with_lock e s (fun s1 => Some (set_cfg (apply_update u (cfg s1)) s1, MOk tt))).

(** [MintRequest], src/core_nft/src/types/management.rs:15-19. *)
Record mint_req := mkMint { mr_owner : account; mr_memo : option bytes; mr_meta : list (string * value) }.

(** Memo loop of [mint], src/core_nft/src/updates/management.rs:157-164: [None] panic, [Some false] a bad memo. *)
Fixpoint check_memos (s : state) (l : list mint_req) : option bool :=
  match l with
  | [] => Some true
  | r :: rest =>
      match check_memo s (mr_memo r) with
      | None => None
      | Some false => Some false
      | Some true => check_memos s rest
      end
  end.

(** Metadata written by the first loop of [mint] for ids [id], [id+1], ...,
    src/core_nft/src/updates/management.rs:170-175. *)
Fixpoint mint_metadata (id : N) (l : list mint_req) (m : gmap N (gmap string value))
  : option (gmap N (gmap string value)) :=
  match l with
  | [] => Some m
  | r :: rest =>
      match add_metadata id (mr_meta r) m with
      | None => None
      | Some m' => mint_metadata (id + 1) rest m'
      end
  end.

(** Transaction of one minted token, src/core_nft/src/updates/management.rs:177-189. *)
Definition mint_tx (now id : N) (r : mint_req) : tx :=
  mkTx "7mint" now (Some id) None (Some (mr_owner r)) None None None (mr_memo r) (Some now).

(** Logging loop of [mint], src/core_nft/src/updates/management.rs:195-204: stops at the first failure. *)
Fixpoint mint_log (e : env) (id : N) (l : list mint_req) (s : state) : state * option string :=
  match l with
  | [] => (s, None)
  | r :: rest =>
      let '(s1, ans) := add_transaction e (mint_tx (e_now e) id r) s in
      match ans with
      | LOk _ => mint_log e (id + 1) rest s1
      | _ => (s1, Some (logans_msg ans))
      end
  end.

(** Insertion loop of [mint], src/core_nft/src/updates/management.rs:211-219. *)
Fixpoint mint_insert (id : N) (l : list mint_req) (s : state) : state :=
  match l with
  | [] => s
  | r :: rest =>
      let s1 := set_tokens (<[id := mkTok id (mr_owner r)]> (tokens s)) s in
      let k := akey (mr_owner r) in
      let s2 := set_by_owner (<[k := default [] (by_owner s1 !! k) ++ [id]]> (by_owner s1)) s1 in
      mint_insert (id + 1) rest s2
  end.

(** Body of [mint] under the lock, src/core_nft/src/updates/management.rs:131-226. *)
Definition mint_body (e : env) (l : list mint_req) (s : state) : option (state * mres N) :=
  if default default_max_update (c_max_update (cfg s)) <? nlen l then Some (s, MErr EExceedMaxAllowedSupplyCap)
  else
  let cur := last_id s in
  if default default_supply_cap (c_supply_cap (cfg s)) <? N.of_nat (size (tokens s)) + nlen l
  then Some (s, MErr EExceedMaxAllowedSupplyCap)
  else
  match check_memos s l with
  | None => None
  | Some false => Some (s, MErr EInvalidMemo)
  | Some true =>
    match mint_metadata cur l (metas s) with
    | None => None
    | Some m =>
      let s1 := set_metas m s in
      match mint_log e cur l s1 with
      | (s2, Some msg) => Some (s2, MErr (EStorageCanisterError msg))
      | (s2, None) => Some (mint_insert cur l (set_last_id (cur + nlen l) s2), MOk cur)
      end
    end
  end.

(** [mint], src/core_nft/src/updates/management.rs:123-227. *)
Definition mint (e : env) (s : state) (l : list mint_req) : option (state * mres N) :=
  with_permission PMinting "Caller does not have minting permission" e s (with_lock e s (mint_body e l)).

(** Transaction of a metadata update, src/core_nft/src/updates/management.rs:255-296. *)
Definition update_meta_tx (e : env) (tid : N) (before after : value) : tx :=
  mkTx "7update_token" (e_now e) (Some tid) (Some (mkAcc (e_caller e) None)) None None None
       (Some (VMap [("icrc7:new_metadata"%string, after); ("icrc7:previous_metadata"%string, before)]))
       None (Some (e_now e)).

(** Body of [update_nft_metadata], src/core_nft/src/updates/management.rs:239-323. *)
Definition update_nft_metadata_body (e : env) (tid : N) (kvs : list (string * value)) (s : state)
  : option (state * mres N) :=
  match tokens s !! tid with
  | None => Some (s, MErr ETokenDoesNotExist)
  | Some tok =>
    match replace_metadata (t_id tok) kvs (metas s) with
    | None => None
    | Some m =>
      let before := meta_value tid (metas s) in
      let s1 := set_metas m s in
      let after := meta_value tid (metas s1) in
      let '(s2, ans) := add_transaction e (update_meta_tx e tid before after) s1 in
      match ans with
      | LOk _ => Some (set_tokens (<[tid := tok]> (tokens s2)) s2, MOk tid)
      | _ => Some (s2, MErr (EStorageCanisterError (logans_msg ans)))
      end
    end
  end.

(** [update_nft_metadata], src/core_nft/src/updates/management.rs:229-324. *)
Definition update_nft_metadata (e : env) (s : state) (tid : N) (kvs : list (string * value))
  : option (state * mres N) :=
  with_permission PUpdateMetadata "Caller does not have update metadata permission" e s
    (with_lock e s (update_nft_metadata_body e tid kvs)).

(** Transaction of a burn, src/core_nft/src/updates/management.rs:343-355. *)
Definition burn_tx (now tid : N) (tok : token) : tx :=
  mkTx "7burn" now (Some tid) (Some (t_owner tok)) None None None None None (Some now).

(** Body of [burn_nft], src/core_nft/src/updates/management.rs:332-370. *)
Definition burn_body (e : env) (tid : N) (s : state) : option (state * mres unit) :=
  match tokens s !! tid with
  | None => Some (s, MErr ETokenDoesNotExist)
  | Some tok =>
    if negb (bool_decide (e_caller e = acc_owner (t_owner tok))) then Some (s, MErr ENotTokenOwner)
    else
    let '(s1, ans) := add_transaction e (burn_tx (e_now e) tid tok) s in
    match ans with
    | LOk _ => Some (set_tokens (delete tid (tokens s1)) s1, MOk tt)
    | _ => Some (s1, MErr (EStorageCanisterError (logans_msg ans)))
    end
  end.

(** [burn_nft], src/core_nft/src/updates/management.rs:326-371 (no permission guard). *)
Definition burn_nft (e : env) (s : state) (tid : N) : option (state * mres unit) :=
  with_lock e s (burn_body e tid).

(** [grant_permission], src/core_nft/src/updates/management.rs:640-654. *)
Definition grant_permission (e : env) (s : state) (p : principal) (perm : permission) : option (state * mres unit) :=
  with_permission PManageAuthorities "Caller does not have manage authorities permission" e s
    (with_lock e s (fun s1 => Some (set_perms (perm_grant p perm (perms s1)) s1, MOk tt))).

(** [revoke_permission], src/core_nft/src/updates/management.rs:656-670. *)
Definition revoke_permission (e : env) (s : state) (p : principal) (perm : permission) : option (state * mres unit) :=
  with_permission PManageAuthorities "Caller does not have manage authorities permission" e s
    (with_lock e s (fun s1 => Some (set_perms (perm_revoke p perm (perms s1)) s1, MOk tt))).

(** ** Uploads.  Each call is split at its await. *)

(** MAX_FILE_SIZE, src/core_nft/src/types/sub_canister.rs:17. *)
Definition max_file_size : N := 2147483648.

(** [InternalFilestorage::contains_path], src/core_nft/src/state.rs:312-314. *)
Definition contains_path (s : state) (path : string) : bool :=
  existsb (fun kv => bool_decide (u_path (snd kv) = path)) (map_to_list (files s)).

(** What an upload call does first: answer at once, or wait for the storage canister ([None] answer):
    the awaits of src/core_nft/src/updates/management.rs:385,446,508,625. *)
Definition ures := option (mres unit).

(** Entry of a call that may wait: permission guard, lock, then the first part; the lock is released when the call
    answers at once and stays with the pending call otherwise.
    src/core_nft/src/updates/management.rs:373-377,409-413,468-473,588-592. *)
Definition upload_entry (e : env) (s : state) (first : state -> state * (err + pending)) : state * ures :=
  if has_permission s (e_caller e) PUpdateUploads then
    match guard_new (e_caller e) s with
    | None => (s, Some (MErr EConcurrentManagementCall))
    | Some s1 =>
        match first s1 with
        | (s2, inl er) => (guard_drop (e_caller e) s2, Some (MErr er))
        | (s2, inr p) => (set_next_pend (next_pend s2 + 1) (set_pend (<[next_pend s2 := p]> (pend s2)) s2), None)
        end
    end
  else (s, Some (MReject "Caller does not have update uploads permission")).

(** First part of [init_upload], src/core_nft/src/updates/management.rs:379-385 and the size check of
    src/core_nft/src/types/sub_canister.rs:75-78, which answers before any await. *)
Definition init_upload_first (e : env) (path : string) (size : N) (s : state) : state * (err + pending) :=
  if contains_path s path then (s, inl EFileAlreadyExists)
  else if max_file_size <? size
  then (s, inl (EStorageCanisterError "File size exceeds the maximum limit of 2GB"))
  else (s, inr (PInit (e_caller e) path (subs s))).

(** [init_upload] up to the await, src/core_nft/src/updates/management.rs:373-385. *)
Definition init_upload (e : env) (s : state) (path : string) (size : N) : state * ures :=
  upload_entry e s (init_upload_first e path size).

(** Message when the storage canister is unknown, src/core_nft/src/updates/management.rs:441,503,620. *)
Definition not_found_msg : string := "Storage canister not found. Cancelling the upload.".

(** First part of [store_chunk], src/core_nft/src/updates/management.rs:415-446. *)
Definition store_chunk_first (e : env) (key : string) (s : state) : state * (err + pending) :=
  match files s !! key with
  | None => (s, inl EUploadNotInitialized)
  | Some u =>
    match u_state u with
    | UFinalized => (s, inl EUploadAlreadyFinalized)
    | _ =>
      if bool_decide (u_canister u ∈ subs s)
      then (s, inr (PStore (e_caller e) key (u_init u) (u_canister u) (u_path u)))
      else (set_files (delete key (files s)) s, inl (EStorageCanisterError not_found_msg))
    end
  end.

(** [store_chunk] up to the await, src/core_nft/src/updates/management.rs:409-446.  (A storage canister that is not in
    state Installed answers an error without an await, src/core_nft/src/types/sub_canister.rs:264-270; here that is one of
    the error replies.) *)
Definition store_chunk (e : env) (s : state) (key : string) : state * ures :=
  upload_entry e s (store_chunk_first e key).

(** First part of [finalize_upload], src/core_nft/src/updates/management.rs:475-508. *)
Definition finalize_upload_first (e : env) (key : string) (s : state) : state * (err + pending) :=
  match files s !! key with
  | None => (s, inl EUploadNotStarted)
  | Some u =>
    match u_state u with
    | UInit => (s, inl EUploadNotStarted)
    | UFinalized => (s, inl EUploadAlreadyFinalized)
    | UInProgress =>
      if bool_decide (u_canister u ∈ subs s)
      then (s, inr (PFinalize (e_caller e) key (u_init u) (u_canister u) (u_path u)))
      else (set_files (delete key (files s)) s, inl (EStorageCanisterError not_found_msg))
    end
  end.

(** [finalize_upload] up to the await, src/core_nft/src/updates/management.rs:468-508. *)
Definition finalize_upload (e : env) (s : state) (key : string) : state * ures :=
  upload_entry e s (finalize_upload_first e key).

(** First part of [cancel_upload], src/core_nft/src/updates/management.rs:594-625. *)
Definition cancel_upload_first (e : env) (key : string) (s : state) : state * (err + pending) :=
  match files s !! key with
  | None => (s, inl EUploadNotInitialized)
  | Some u =>
    match u_state u with
    | UFinalized => (s, inl EUploadAlreadyFinalized)
    | _ =>
      if bool_decide (u_canister u ∈ subs s)
      then (s, inr (PCancel (e_caller e) key))
      else (set_files (delete key (files s)) s, inl (EStorageCanisterError not_found_msg))
    end
  end.

(** [cancel_upload] up to the await, src/core_nft/src/updates/management.rs:588-625. *)
Definition cancel_upload (e : env) (s : state) (key : string) : state * ures :=
  upload_entry e s (cancel_upload_first e key).

(** Reply an upload call continues with.  [RInitOk c]: the upload was accepted by canister [c], which is new if it is not
    in the snapshot; [RInitErr created e]: refused, after possibly creating a canister
    (src/core_nft/src/types/sub_canister.rs:80-129); [ROk]/[RErr] the storage canister's reply to the other calls;
    [RTrap]: the continuation traps, its effects are rolled back and the cleanup drops the lock. *)
Inductive reply :=
| RInitOk (canister : principal)
| RInitErr (created : option principal) (e : err)
| ROk
| RErr (e : err)
| RTrap.

(** Caller of a pending call (owner of its lock), src/core_nft/src/guards.rs:16-45. *)
Definition pending_caller (p : pending) : principal :=
  match p with
  | PInit c _ _ => c | PStore c _ _ _ _ => c | PFinalize c _ _ _ _ => c | PCancel c _ => c
  end.

(** Path normalisation, src/core_nft/src/updates/management.rs:517-521. *)
Definition norm_path (p : string) : string :=
  match p with
  | String c _ => if Ascii.eqb c (Ascii.ascii_of_N 47) then p else ("/" ++ p)%string
  | EmptyString => "/"
  end.

(** Redirection URL, src/core_nft/src/updates/management.rs:523. *)
Definition redirection_url (canister : principal) (path : string) : string :=
  ("https://" ++ principal_text canister ++ ".raw.icp0.io" ++ path)%string.

(** The part after the await: init 385-406, store 446-465, finalize 508-550, cancel 625-637 of
    src/core_nft/src/updates/management.rs. Replies of the wrong kind cannot occur; they are treated as a trap. *)
Definition continue (now : N) (p : pending) (r : reply) (s : state) : state * option (mres unit) :=
  match p, r with
  | PInit _ path snap, RInitOk c =>
      let subs' := if bool_decide (c ∈ snap) then snap else snap ++ [c] in
      let s1 := set_subs subs' s in
      (set_files (<[path := mkUp now UInit c path]> (files s1)) s1, Some (MOk tt))
  | PInit _ _ _, RInitErr _ er => (s, Some (MErr er))
  | PStore _ key i c path, ROk => (set_files (<[key := mkUp i UInProgress c path]> (files s)) s, Some (MOk tt))
  | PStore _ _ _ _ _, RErr er => (s, Some (MErr er))
  | PFinalize _ key i c path, ROk =>
      let np := norm_path path in
      let s1 := set_redirs (<[np := redirection_url c np]> (redirs s)) s in
      (set_files (<[key := mkUp i UFinalized c path]> (files s1)) s1, Some (MOk tt))
  | PFinalize _ _ _ _ _, RErr er => (s, Some (MErr er))
  | PCancel _ key, ROk => (set_files (delete key (files s)) s, Some (MOk tt))
  | PCancel _ _, RErr er => (s, Some (MErr er))
  | _, _ => (s, None)
  end.

(** Arrival of the reply to pending call [id]: run the continuation, drop the lock, forget the call.
    src/core_nft/src/updates/management.rs (see [continue]) and src/core_nft/src/guards.rs:41-45. *)
Definition resume (now id : N) (r : reply) (s : state) : state * option (mres unit) :=
  match pend s !! id with
  | None => (s, None)
  | Some p =>
      let '(s1, a) := continue now p r s in
      (set_pend (delete id (pend s1)) (guard_drop (pending_caller p) s1), a)
  end.
