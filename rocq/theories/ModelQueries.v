(** Queries: src/core_nft/src/queries/icrc7.rs, src/core_nft/src/queries/icrc37.rs *)
From Verif Require Import Base ModelState ModelIcrc37.

(** Batch limit of the queries, src/core_nft/src/queries/icrc7.rs:181-188,214-222,241-248. *)
Definition query_limit (s : state) : N :=
  default default_max_query (usize_try (default default_max_query (c_max_query (cfg s)))).

(** Trap of an oversized batch, src/core_nft/src/queries/icrc7.rs:185-193,219-227,245-253. *)
Definition batch_query {A B} (s : state) (f : A -> B) (l : list A) : option (list B) :=
  if query_limit s <? nlen l then None else Some (map f l).

(** [icrc7_owner_of], src/core_nft/src/queries/icrc7.rs:213-235. *)
Definition icrc7_owner_of (s : state) (ids : list N) : option (list (option account)) :=
  batch_query s (owner_of s) ids.

(** [Data::tokens_balance_of], src/core_nft/src/state.rs:197-204. *)
Definition tokens_balance_of (s : state) (a : account) : N :=
  match by_owner s !! akey a with Some l => nlen l | None => 0 end.

(** [icrc7_balance_of], src/core_nft/src/queries/icrc7.rs:237-261. *)
Definition icrc7_balance_of (s : state) (accts : list account) : option (list N) :=
  batch_query s (tokens_balance_of s) accts.

(** [Icrc7Token::token_metadata], src/core_nft/src/types/nft.rs:30-44. *)
Definition token_metadata (s : state) (tok : token) : list (string * value) :=
  sorted_pairs (default ∅ (metas s !! t_id tok)).

(** [icrc7_token_metadata], src/core_nft/src/queries/icrc7.rs:177-211. *)
Definition icrc7_token_metadata (s : state) (ids : list N) : option (list (option (list (string * value)))) :=
  batch_query s (fun tid => token_metadata s <$> tokens s !! tid) ids.

(** [Data::total_supply], src/core_nft/src/state.rs:225-227. *)
Definition total_supply (s : state) : N := N.of_nat (size (tokens s)).

(** Limit check of the paged queries, src/core_nft/src/queries/icrc7.rs:268-279,311-322. *)
Definition take_ok (s : state) (tk : option N) : bool :=
  match tk with
  | None => true
  | Some t => negb (default default_max_take (c_max_take (cfg s)) <? t)
  end.

(** Page size, src/core_nft/src/queries/icrc7.rs:283-293,326-336. *)
Definition page_size (s : state) (tk : option N) : N :=
  default default_take (usize_try (match tk with
                                   | Some t => t
                                   | None => default default_take (c_default_take (cfg s))
                                   end)).

(** [iter().position(|id| id > &prev).unwrap_or(len)], src/core_nft/src/queries/icrc7.rs:297-300,340-343. *)
Fixpoint position_gt (prev : N) (l : list N) : nat :=
  match l with
  | [] => 0%nat
  | x :: r => if prev <? x then 0%nat else S (position_gt prev r)
  end.

(** Sort, find the start, skip and take: src/core_nft/src/queries/icrc7.rs:295-301,338-344. *)
Definition page_of (ids : list N) (prev : option N) (tk : N) : list N :=
  let l := merge_sort N.le ids in
  take_n tk (skipn (position_gt (default 0 prev) l) l).

(** [icrc7_tokens], src/core_nft/src/queries/icrc7.rs:263-303; [None] is the trap. *)
Definition icrc7_tokens (s : state) (prev tk : option N) : option (list N) :=
  if take_ok s tk then Some (page_of (map fst (map_to_list (tokens s))) prev (page_size s tk)) else None.

(** [Data::tokens_ids_of_account], src/core_nft/src/state.rs:217-223. *)
Definition tokens_ids_of_account (s : state) (a : account) : list N :=
  map fst (filter (fun kt => akey (t_owner (snd kt)) = akey a) (map_to_list (tokens s))).

(** [icrc7_tokens_of], src/core_nft/src/queries/icrc7.rs:305-346. *)
Definition icrc7_tokens_of (s : state) (a : account) (prev tk : option N) : option (list N) :=
  if take_ok s tk then Some (page_of (tokens_ids_of_account s a) prev (page_size s tk)) else None.

(** Entries of an approval listing: the account of the entry's key and the approval.
    src/core_nft/src/queries/icrc37.rs:29-44,88-107. *)
Definition listed := (account * approval)%type.

(** [ApprovalInfo] built from an entry; [from_subaccount] is taken from the spender key.
    src/core_nft/src/queries/icrc37.rs:33-42,97-105. *)
Definition listed_info (x : listed) : approval_info :=
  mkInfo (a_spender (snd x)) (acc_sub (fst x)) (a_expires (snd x)) (a_memo (snd x)) (a_created (snd x)).

(** Newest first, src/core_nft/src/queries/icrc37.rs:46-50,109-113. *)
Definition newer (x y : approval_info) : Prop := ai_created y <= ai_created x.
(** See [newer]. *)
Global Instance newer_dec : forall x y, Decision (newer x y).
Proof. intros. unfold newer. apply _. Defined.

(** [position(..).map(+1).unwrap_or(0)], src/core_nft/src/queries/icrc37.rs:52-62,115-125. *)
Fixpoint position_spender (sp : account) (l : list approval_info) : option nat :=
  match l with
  | [] => None
  | x :: r => if acc_eqb (ai_spender x) sp then Some 0%nat
              else match position_spender sp r with Some n => Some (S n) | None => None end
  end.

(** Sorting and paging of approvals, src/core_nft/src/queries/icrc37.rs:46-71,109-134.  [entries] is the iteration order of
    the hash map: any permutation of the entries. *)
Definition approvals_page (entries : list listed) (prev : option account) (tk : option N) : list approval_info :=
  let take_usize := default 10 (match tk with Some n => usize_try n | None => Some 10 end) in
  let all := merge_sort newer (map listed_info entries) in
  let start := match prev with
               | Some sp => match position_spender sp all with Some n => S n | None => 0%nat end
               | None => 0%nat
               end in
  take_n take_usize (skipn start all).

(** Entries listed by [icrc37_get_token_approvals], src/core_nft/src/queries/icrc37.rs:26-32. *)
Definition token_approvals_entries (s : state) (tid : N) : list listed :=
  match tok_appr s !! tid with Some m => map snd (map_to_list m) | None => [] end.

(** Entries listed by [icrc37_get_collection_approvals], src/core_nft/src/queries/icrc37.rs:88-96. *)
Definition collection_approvals_entries (s : state) (a : account) : list listed :=
  match col_appr s !! akey a with Some m => map snd (map_to_list m) | None => [] end.

(** [icrc37_get_token_approvals], src/core_nft/src/queries/icrc37.rs:14-75; [order] is the iteration order of the hash
    map, any function that permutes its argument. *)
Definition icrc37_get_token_approvals (order : list listed -> list listed) (s : state) (tid : N)
  (prev : option account) (tk : option N) : list approval_info :=
  approvals_page (order (token_approvals_entries s tid)) prev tk.

(** [icrc37_get_collection_approvals], src/core_nft/src/queries/icrc37.rs:77-137. *)
Definition icrc37_get_collection_approvals (order : list listed -> list listed) (s : state) (a : account)
  (prev : option account) (tk : option N) : list approval_info :=
  approvals_page (order (collection_approvals_entries s a)) prev tk.

(** [IsApprovedArg], src/core_nft/src/types/icrc37.rs:246-250. *)
Record is_approved_arg := mkIsApproved { ia_spender : account; ia_from_sub : option bytes; ia_tid : N }.

(** [icrc37_is_approved] for one argument, src/core_nft/src/queries/icrc37.rs:144-204: note that the collection approvals
    looked up are those of the spender (line 183), and the account compared with the owner is the spender's (146-149). *)
Definition is_approved (s : state) (now : N) (a : is_approved_arg) : bool :=
  let sp := ia_spender a in
  let from := mkAcc (acc_owner sp) (ia_from_sub a) in
  let has_tok := match tok_appr s !! ia_tid a with
                 | None => false
                 | Some m => match m !! akey sp with
                             | None => false
                             | Some (_, ap) => match a_expires ap with Some x => now <? x | None => true end
                             end
                 end in
  let has_col := existsb (fun kv => bool_decide (acc_owner (fst (snd kv)) = acc_owner sp) &&
                                    bool_decide (acc_sub (fst (snd kv)) = acc_sub sp))
                         (map_to_list (default ∅ (col_appr s !! akey sp))) in
  let is_owner := match owner_of s (ia_tid a) with Some o => acc_eqb o from | None => false end in
  is_owner || has_tok || has_col.

(** [icrc37_is_approved], src/core_nft/src/queries/icrc37.rs:139-208. *)
Definition icrc37_is_approved (s : state) (now : N) (args : list is_approved_arg) : list bool :=
  map (is_approved s now) args.

(** [get_upload_status], src/core_nft/src/updates/management.rs:558-565 (permission guard left out). *)
Definition get_upload_status (s : state) (path : string) : option upload_state :=
  u_state <$> files s !! path.

(** ** Settings *)

(** [icrc7_symbol], src/core_nft/src/queries/icrc7.rs:107-110. *)
Definition icrc7_symbol (s : state) : string := c_symbol (cfg s).
(** [icrc7_name], src/core_nft/src/queries/icrc7.rs:112-115. *)
Definition icrc7_name (s : state) : string := c_name (cfg s).
(** [icrc7_description], src/core_nft/src/queries/icrc7.rs:117-120. *)
Definition icrc7_description (s : state) : option string := c_description (cfg s).
(** [icrc7_logo], src/core_nft/src/queries/icrc7.rs:122-125. *)
Definition icrc7_logo (s : state) : option string := c_logo (cfg s).
(** [icrc7_supply_cap], src/core_nft/src/queries/icrc7.rs:132-135. *)
Definition icrc7_supply_cap (s : state) : option N := c_supply_cap (cfg s).
(** [icrc7_max_query_batch_size], src/core_nft/src/queries/icrc7.rs:137-140. *)
Definition icrc7_max_query_batch_size (s : state) : option N := c_max_query (cfg s).
(** [icrc7_max_update_batch_size], src/core_nft/src/queries/icrc7.rs:142-145. *)
Definition icrc7_max_update_batch_size (s : state) : option N := c_max_update (cfg s).
(** [icrc7_default_take_value], src/core_nft/src/queries/icrc7.rs:147-150. *)
Definition icrc7_default_take_value (s : state) : option N := c_default_take (cfg s).
(** [icrc7_max_take_value], src/core_nft/src/queries/icrc7.rs:152-155. *)
Definition icrc7_max_take_value (s : state) : option N := c_max_take (cfg s).
(** [icrc7_max_memo_size], src/core_nft/src/queries/icrc7.rs:157-160. *)
Definition icrc7_max_memo_size (s : state) : option N := c_max_memo (cfg s).
(** [icrc7_atomic_batch_transfers], src/core_nft/src/queries/icrc7.rs:162-165. *)
Definition icrc7_atomic_batch_transfers (s : state) : option bool := c_atomic (cfg s).
(** [icrc7_tx_window], src/core_nft/src/queries/icrc7.rs:167-170. *)
Definition icrc7_tx_window (s : state) : option N := c_tx_window (cfg s).
(** [icrc7_permitted_drift], src/core_nft/src/queries/icrc7.rs:172-175. *)
Definition icrc7_permitted_drift (s : state) : option N := c_drift (cfg s).
(** [icrc37_max_approvals_per_token_or_collection], src/core_nft/src/queries/icrc37.rs:209-219. *)
Definition icrc37_max_approvals (s : state) : option N := c_max_appr (cfg s).
(** [icrc37_max_revoke_approvals], src/core_nft/src/queries/icrc37.rs:221-224. *)
Definition icrc37_max_revoke (s : state) : option N := c_max_revoke (cfg s).

(** [if let Some(x) = .. { metadata.push((key, ..)) }], src/core_nft/src/queries/icrc7.rs:28-101. *)
Definition push_opt {A} (key : string) (f : A -> value) (x : option A) : list (string * value) :=
  match x with Some a => [(key, f a)] | None => [] end.

(** [bool::to_string], src/core_nft/src/queries/icrc7.rs:83. *)
Definition bool_text (b : bool) : string := if b then "true" else "false".

(** [icrc7_collection_metadata], src/core_nft/src/queries/icrc7.rs:9-104. *)
Definition icrc7_collection_metadata (s : state) : list (string * value) :=
  merge_sort key_le
    ([("icrc7:symbol"%string, VText (c_symbol (cfg s))); ("icrc7:name"%string, VText (c_name (cfg s)));
      ("icrc7:total_supply"%string, VNat (total_supply s))]
     ++ push_opt "icrc7:description" VText (c_description (cfg s))
     ++ push_opt "icrc7:logo" VText (c_logo (cfg s))
     ++ push_opt "icrc7:supply_cap" VNat (c_supply_cap (cfg s))
     ++ push_opt "icrc7:max_query_batch_size" VNat (c_max_query (cfg s))
     ++ push_opt "icrc7:max_update_batch_size" VNat (c_max_update (cfg s))
     ++ push_opt "icrc7:default_take_value" VNat (c_default_take (cfg s))
     ++ push_opt "icrc7:max_take_value" VNat (c_max_take (cfg s))
     ++ push_opt "icrc7:max_memo_size" VNat (c_max_memo (cfg s))
     ++ push_opt "icrc7:atomic_batch_transfers" (fun b => VText (bool_text b)) (c_atomic (cfg s))
     ++ push_opt "icrc7:tx_window" VNat (c_tx_window (cfg s))
     ++ push_opt "icrc7:permitted_drift" VNat (c_drift (cfg s))).

(** ** Guarded queries; [None] is the rejection by the permission guard. *)

(** Query [has_permission], src/core_nft/src/updates/management.rs:687-697. *)
Definition query_has_permission (s : state) (caller p : principal) (perm : permission) : option bool :=
  if has_permission s caller PManageAuthorities then Some (has_permission s p perm) else None.

(** [get_user_permissions], src/core_nft/src/updates/management.rs:672-686; the inner [None] is [UserNotFound]. *)
Definition get_user_permissions (s : state) (caller p : principal) : option (option (list permission)) :=
  if has_permission s caller PManageAuthorities then Some (perms s !! p) else None.

(** [get_all_storage_subcanisters], src/core_nft/src/updates/management.rs:553-556. *)
Definition get_all_storage_subcanisters (s : state) (caller : principal) : option (list principal) :=
  if has_permission s caller PManageAuthorities then Some (subs s) else None.

(** [get_upload_status] with its guard, src/core_nft/src/updates/management.rs:558-565; the inner [None] is
    [UploadNotFound]. *)
Definition query_upload_status (s : state) (caller : principal) (path : string) : option (option upload_state) :=
  if has_permission s caller PReadUploads then Some (get_upload_status s path) else None.

(** [get_all_uploads], src/core_nft/src/updates/management.rs:567-586; [order] is the iteration order of the hash map,
    any function that permutes its argument; [prev] is a number of entries to skip. *)
Definition get_all_uploads (order : list (string * upload) -> list (string * upload)) (s : state) (caller : principal)
  (prev tk : option N) : option (gmap string upload_state) :=
  if has_permission s caller PReadUploads then
    let start := default 0 (usize_try (default 0 prev)) in
    let n := default 100 (usize_try (default 100 tk)) in
    Some (list_to_map (map (fun kv => (fst kv, u_state (snd kv)))
            (take_n n (skip_n start (order (map_to_list (files s)))))))
  else None.
