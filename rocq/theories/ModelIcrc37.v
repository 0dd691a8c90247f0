(** Approvals and transfer_from: src/core_nft/src/updates/icrc37.rs *)
From Verif Require Import Base ModelState ModelIcrc7.

(** Outcome of [verify_approval_timing]: [Ok(())], [Err((true, ledger_time))], [Err((false, _))].
    src/core_nft/src/updates/icrc37.rs:21. *)
Inductive timing := TimeOk | TimeFuture (ledger_time : N) | TimeTooOld.

(** [verify_approval_timing], src/core_nft/src/updates/icrc37.rs:21-48. *)
Definition verify_approval_timing (s : state) (created now : N) : timing :=
  let drift := default default_drift (u64_try (default default_drift (c_drift (cfg s)))) in
  if add64 now drift <? created then TimeFuture now
  else
  let win := default 0 (u64_try (default default_tx_window (c_tx_window (cfg s)))) in
  if add64 created win <? now then TimeTooOld else TimeOk.

(** The optional variant: no check without a creation time.
    src/core_nft/src/updates/icrc37.rs:429-441,570-582,678-688. *)
Definition verify_opt_timing (s : state) (created : option N) (now : N) : timing :=
  match created with Some c => verify_approval_timing s c now | None => TimeOk end.

(** [ApprovalInfo], src/core_nft/src/types/icrc37.rs:33-40. *)
Record approval_info := mkInfo {
  ai_spender : account;
  ai_from_sub : option bytes;
  ai_expires : option N;
  ai_memo : option bytes;
  ai_created : N
}.

(** [ApproveTokenArg], src/core_nft/src/types/icrc37.rs:62-65. *)
Record approve_arg := mkApproveArg { ap_tid : N; ap_info : approval_info }.

(** Configured limit as [usize], default 10 when unset or too large.
    src/core_nft/src/updates/icrc37.rs:122-135,300-313,403-410,529-536. *)
Definition usize_limit (o : option N) : N :=
  default default_max_appr (usize_try (default default_max_appr o)).

(** The anonymous default account, src/core_nft/src/updates/icrc37.rs:113-116,266-269,702-705. *)
Definition anonymous_account : account := mkAcc anonymous None.

(** The approval written by an approve call, src/core_nft/src/updates/icrc37.rs:139-145,292-298. *)
Definition new_approval (i : approval_info) (from : account) (now : N) : approval :=
  mkAppr (ai_spender i) from (ai_expires i) now (ai_memo i).

(** Transaction of an approval, src/core_nft/src/updates/icrc37.rs:166-179,334-347. *)
Definition approve_tx (bt : string) (now : N) (tid : option N) (from : account) (i : approval_info) : tx :=
  mkTx bt now tid (Some from) None (Some (ai_spender i)) (ai_expires i) None (ai_memo i) (Some (ai_created i)).

(** [approve_token], src/core_nft/src/updates/icrc37.rs:65-212.  The trap stands for the encoding of a token id that
    does not fit 64 bits (src/core_nft/src/types/wrapped_types.rs:33-42). *)
Definition approve_token (e : env) (s : state) (a : approve_arg) : option (state * res N) :=
  let now := e_now e in
  let i := ap_info a in
  let '(s1, pass) := guard_sliding_window now (ap_tid a) s in
  if negb pass then Some (s1, Err (EGeneric 0 (rate_limit_msg now (ap_tid a) s1)))
  else
  match verify_approval_timing s1 (ai_created i) now with
  | TimeFuture t => Some (s1, Err (ECreatedInFuture t))
  | TimeTooOld => Some (s1, Err ETooOld)
  | TimeOk =>
    let from := mkAcc (e_caller e) (ai_from_sub i) in
    match owner_of s1 (ap_tid a) with
    | None => Some (s1, Err ENonExistingTokenId)
    | Some owner =>
      if negb (acc_eqb owner from) then Some (s1, Err EUnauthorized)
      else if acc_eqb (ai_spender i) anonymous_account then Some (s1, Err EInvalidSpender)
      else
      let mx := usize_limit (c_max_appr (cfg s1)) in
      let exceed := match tok_appr s1 !! ap_tid a with
                    | Some m => mx <=? N.of_nat (size m)
                    | None => false
                    end in
      if exceed then Some (s1, Err (EGeneric 1 "Maximum approvals per token exceeded"))
      else
      let '(s2, ans) := add_transaction e (approve_tx "37approve" now (Some (ap_tid a)) from i) s1 in
      match ans with
      | LOk idx =>
          if ap_tid a <? two64 then
          let m := default ∅ (tok_appr s2 !! ap_tid a) in
          Some (set_tok_appr (<[ap_tid a := appmap_insert (ai_spender i) (new_approval i from now) m]> (tok_appr s2)) s2,
                Ok idx)
          else None
      | _ => Some (s2, Err (EGeneric 1 ("Failed to log transaction: " ++ logans_msg ans)))
      end
    end
  end.

(** [icrc37_approve_tokens], src/core_nft/src/updates/icrc37.rs:50-63. *)
Definition icrc37_approve_tokens (e : env) (s : state) (args : list approve_arg) : option (state * list (res N)) :=
  run_items (approve_token e) s args.

(** Has the caller's principal any token, under whatever subaccount?  src/core_nft/src/updates/icrc37.rs:275-281. *)
Definition has_nfts (s : state) (p : principal) : bool :=
  existsb (fun kt => bool_decide (acc_owner (t_owner (snd kt)) = p)) (map_to_list (tokens s)).

(** [approve_collection], src/core_nft/src/updates/icrc37.rs:231-377. *)
Definition approve_collection (e : env) (s : state) (i : approval_info) : option (state * res N) :=
  let now := e_now e in
  let '(s1, pass) := guard_sliding_window now 0 s in
  if negb pass then Some (s1, Err (EGeneric 0 (rate_limit_msg now 0 s1)))
  else
  match verify_approval_timing s1 (ai_created i) now with
  | TimeFuture t => Some (s1, Err (ECreatedInFuture t))
  | TimeTooOld => Some (s1, Err ETooOld)
  | TimeOk =>
    let from := mkAcc (e_caller e) (ai_from_sub i) in
    if acc_eqb (ai_spender i) anonymous_account then Some (s1, Err EInvalidSpender)
    else if negb (has_nfts s1 (e_caller e))
    then Some (s1, Err (EGeneric 1 "Caller must own at least one NFT to approve collection"))
    else
    let mx := usize_limit (c_max_appr (cfg s1)) in
    let exceed := match col_appr s1 !! akey from with
                  | Some m => mx <=? N.of_nat (size m)
                  | None => false
                  end in
    if exceed then Some (s1, Err (EGeneric 1 "Maximum approvals per collection exceeded"))
    else
    let '(s2, ans) := add_transaction e (approve_tx "37approve_coll" now None from i) s1 in
    match ans with
    | LOk idx =>
        let m := default ∅ (col_appr s2 !! akey from) in
        Some (set_col_appr (<[akey from := appmap_insert (ai_spender i) (new_approval i from now) m]> (col_appr s2)) s2,
              Ok idx)
    | _ => Some (s2, Err (EGeneric 1 ("Failed to log transaction: " ++ logans_msg ans)))
    end
  end.

(** [icrc37_approve_collection], src/core_nft/src/updates/icrc37.rs:214-229. *)
Definition icrc37_approve_collection (e : env) (s : state) (args : list approval_info)
  : option (state * list (res N)) :=
  run_items (approve_collection e) s args.

(** [RevokeTokenApprovalArg], src/core_nft/src/types/icrc37.rs:119-125. *)
Record revoke_arg := mkRevokeArg {
  rv_spender : option account;
  rv_from_sub : option bytes;
  rv_tid : N;
  rv_memo : option bytes;
  rv_created : option N
}.

(** Removal of one spender or of all, src/core_nft/src/updates/icrc37.rs:474-478,601-605. *)
Definition revoke_from (spender : option account) (m : appmap) : appmap :=
  match spender with Some sp => delete (akey sp) m | None => ∅ end.

(** Transaction of a revocation, src/core_nft/src/updates/icrc37.rs:482-495,609-622. *)
Definition revoke_tx (bt : string) (now : N) (tid : option N) (from : account) (sp : option account)
  (memo : option bytes) (created : option N) : tx :=
  mkTx bt now tid (Some from) None sp None None memo created.

(** [revoke_token_approvals], src/core_nft/src/updates/icrc37.rs:422-515.  (The key written is already in the
    stable map, so its encoding cannot fail.) *)
Definition revoke_token_approvals (e : env) (s : state) (a : revoke_arg) : option (state * res N) :=
  let now := e_now e in
  match verify_opt_timing s (rv_created a) now with
  | TimeFuture t => Some (s, Err (ECreatedInFuture t))
  | TimeTooOld => Some (s, Err ETooOld)
  | TimeOk =>
    let from := mkAcc (e_caller e) (rv_from_sub a) in
    match owner_of s (rv_tid a) with
    | None => Some (s, Err ENonExistingTokenId)
    | Some owner =>
      if negb (acc_eqb owner from) then Some (s, Err EUnauthorized)
      else
      match tok_appr s !! rv_tid a with
      | None => Some (s, Err EApprovalDoesNotExist)
      | Some m =>
        let m' := revoke_from (rv_spender a) m in
        let '(s2, ans) := add_transaction e
            (revoke_tx "37revoke" now (Some (rv_tid a)) from (rv_spender a) (rv_memo a) (rv_created a)) s in
        match ans with
        | LOk idx => Some (set_tok_appr (<[rv_tid a := m']> (tok_appr s2)) s2, Ok idx)
        | _ => Some (s2, Err (EGeneric 1 ("Failed to log transaction: " ++ logans_msg ans)))
        end
      end
    end
  end.

(** [icrc37_revoke_token_approvals], src/core_nft/src/updates/icrc37.rs:379-420: [args[0]] panics on an empty batch;
    the rate limiter looks at the first item only; the whole call is refused by it ([inr]). *)
Definition icrc37_revoke_token_approvals (e : env) (s : state) (args : list revoke_arg)
  : option (state * (list (res N) + err)) :=
  match args with
  | [] => None
  | a0 :: _ =>
    let '(s1, pass) := guard_sliding_window (e_now e) (rv_tid a0) s in
    if negb pass then Some (s1, inr (EGeneric 0 (rate_limit_msg (e_now e) (rv_tid a0) s1)))
    else
    match run_items (revoke_token_approvals e) s1 (take_n (usize_limit (c_max_revoke (cfg s1))) args) with
    | None => None
    | Some (s2, rs) => Some (s2, inl rs)
    end
  end.

(** [RevokeCollectionApprovalArg], src/core_nft/src/types/icrc37.rs:152-157. *)
Record revoke_coll_arg := mkRevokeCollArg {
  rc_spender : option account;
  rc_from_sub : option bytes;
  rc_memo : option bytes;
  rc_created : option N
}.

(** [revoke_collection_approvals], src/core_nft/src/updates/icrc37.rs:548-644; [from_subaccount] is never read. *)
Definition revoke_collection_approvals (e : env) (s : state) (a : revoke_coll_arg) : option (state * res N) :=
  let now := e_now e in
  let '(s1, pass) := guard_sliding_window now 0 s in
  if negb pass then Some (s1, Err (EGeneric 0 (rate_limit_msg now 0 s1)))
  else
  match verify_opt_timing s1 (rc_created a) now with
  | TimeFuture t => Some (s1, Err (ECreatedInFuture t))
  | TimeTooOld => Some (s1, Err ETooOld)
  | TimeOk =>
    let from := mkAcc (e_caller e) None in
    match col_appr s1 !! akey from with
    | None => Some (s1, Err EApprovalDoesNotExist)
    | Some m =>
      let m' := revoke_from (rc_spender a) m in
      let '(s2, ans) := add_transaction e
          (revoke_tx "37revoke_coll" now None from (rc_spender a) (rc_memo a) (rc_created a)) s1 in
      match ans with
      | LOk idx => Some (set_col_appr (<[akey from := m']> (col_appr s2)) s2, Ok idx)
      | _ => Some (s2, Err (EGeneric 1 ("Failed to log transaction: " ++ logans_msg ans)))
      end
    end
  end.

(** [icrc37_revoke_collection_approvals], src/core_nft/src/updates/icrc37.rs:517-546. *)
Definition icrc37_revoke_collection_approvals (e : env) (s : state) (args : list revoke_coll_arg)
  : option (state * list (res N)) :=
  run_items (revoke_collection_approvals e) s (take_n (usize_limit (c_max_revoke (cfg s))) args).

(** [TransferFromArg], src/core_nft/src/types/icrc37.rs:183-190. *)
Record transfer_from_arg := mkTransferFromArg {
  tf_spender_sub : option bytes;
  tf_from : account;
  tf_to : account;
  tf_tid : N;
  tf_memo : option bytes;
  tf_created : option N
}.

(** Token approval check of [transfer_from]: an expired approval is removed.
    src/core_nft/src/updates/icrc37.rs:718-738. *)
Definition check_token_approval (now tid : N) (spender : account) (s : state) : state * bool :=
  match tok_appr s !! tid with
  | None => (s, false)
  | Some m =>
    match m !! akey spender with
    | None => (s, false)
    | Some (_, ap) =>
      match a_expires ap with
      | None => (s, true)
      | Some x =>
        if x <=? now
        then (set_tok_appr (<[tid := delete (akey spender) m]> (tok_appr s)) s, false)
        else (s, true)
      end
    end
  end.

(** Collection approval check of [transfer_from] (the removal of an empty map at line 752-754 is undone by the insert
    at 756-759).  src/core_nft/src/updates/icrc37.rs:740-768. *)
Definition check_collection_approval (now : N) (owner spender : account) (s : state) : state * bool :=
  match col_appr s !! akey owner with
  | None => (s, false)
  | Some m =>
    match m !! akey spender with
    | None => (s, false)
    | Some (_, ap) =>
      match a_expires ap with
      | None => (s, true)
      | Some x =>
        if x <=? now
        then (set_col_appr (<[akey owner := delete (akey spender) m]> (col_appr s)) s, false)
        else (s, true)
      end
    end
  end.

(** Transaction of a transfer_from, src/core_nft/src/updates/icrc37.rs:776-789. *)
Definition transfer_from_tx (now : N) (a : transfer_from_arg) (spender : account) : tx :=
  mkTx "37xfer" now (Some (tf_tid a)) (Some (tf_from a)) (Some (tf_to a)) (Some spender) None None
       (tf_memo a) (tf_created a).

(** Error answer of [transfer_from] for a failing log, src/core_nft/src/updates/icrc37.rs:793-811. *)
Definition transfer_from_log_err (ans : logans) : err :=
  match ans with
  | LErr m => if str_contains "duplicate" (lowercase m) then EDuplicate 2
              else EGeneric 1 ("Failed to insert transaction: " ++ m)
  | _ => EGeneric 1 ("Failed to insert transaction: " ++ logans_msg ans)
  end.

(** [transfer_from], src/core_nft/src/updates/icrc37.rs:661-851. *)
Definition transfer_from (e : env) (s : state) (a : transfer_from_arg) : option (state * res N) :=
  let now := e_now e in
  let '(s1, pass) := guard_sliding_window now (tf_tid a) s in
  if negb pass then Some (s1, Err (EGeneric 0 (rate_limit_msg now (tf_tid a) s1)))
  else
  match verify_opt_timing s1 (tf_created a) now with
  | TimeFuture t => Some (s1, Err (ECreatedInFuture t))
  | TimeTooOld => Some (s1, Err ETooOld)
  | TimeOk =>
    match tokens s1 !! tf_tid a with
    | None => Some (s1, Err ENonExistingTokenId)
    | Some nft =>
      if acc_eqb (tf_from a) (tf_to a) then Some (s1, Err EInvalidRecipient)
      else if acc_eqb (tf_to a) anonymous_account then Some (s1, Err EInvalidRecipient)
      else
      let spender := mkAcc (e_caller e) (tf_spender_sub a) in
      let is_owner := acc_eqb (t_owner nft) (tf_from a) in
      let '(s2, has_tok) := check_token_approval now (tf_tid a) spender s1 in
      let '(s3, has_col) := check_collection_approval now (t_owner nft) spender s2 in
      let is_holder := acc_eqb spender (tf_from a) in
      if negb is_owner || (negb is_holder && negb has_tok && negb has_col)
      then Some (s3, Err EUnauthorized)
      else
      let '(s4, ans) := add_transaction e (transfer_from_tx now a spender) s3 in
      match ans with
      | LOk idx =>
          let s5 := move_token nft (tf_to a) s4 in
          let s6 := set_tok_appr (delete (tf_tid a) (tok_appr s5)) s5 in
          let s7 := set_col_appr (delete (akey (tf_from a)) (col_appr s6)) s6 in
          Some (s7, Ok idx)
      | _ => Some (s4, Err (transfer_from_log_err ans))
      end
    end
  end.

(** [icrc37_transfer_from], src/core_nft/src/updates/icrc37.rs:646-659. *)
Definition icrc37_transfer_from (e : env) (s : state) (args : list transfer_from_arg)
  : option (state * list (res N)) :=
  run_items (transfer_from e) s args.
