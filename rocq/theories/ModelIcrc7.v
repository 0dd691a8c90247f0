(** icrc7_transfer: src/core_nft/src/updates/icrc7.rs *)
From Verif Require Import Base ModelState.

(** [TransferArg], src/core_nft/src/types/icrc7.rs:17-24 ([from_subaccount] is never read by the code). *)
Record transfer_arg := mkTransferArg {
  ta_to : account;
  ta_tid : N;
  ta_memo : option bytes;
  ta_from_sub : option bytes;
  ta_created : option N
}.

(** Ownership update shared by icrc7_transfer and icrc37_transfer_from: [update_token_by_id], push to the
    recipient's list, [retain] out of the previous owner's list.
    src/core_nft/src/updates/icrc7.rs:86-101, src/core_nft/src/updates/icrc37.rs:814-832. *)
Definition move_token (nft : token) (to : account) (s : state) : state :=
  let prev := t_owner nft in
  let s1 := set_tokens (<[t_id nft := mkTok (t_id nft) to]> (tokens s)) s in
  let b1 := <[akey to := default [] (by_owner s1 !! akey to) ++ [t_id nft]]> (by_owner s1) in
  let b2 := <[akey prev := filter (fun i => i <> t_id nft) (default [] (b1 !! akey prev))]> b1 in
  set_by_owner b2 s1.

(** The transaction of a transfer, src/core_nft/src/updates/icrc7.rs:67-79. *)
Definition transfer_tx (now : N) (nft : token) (a : transfer_arg) (time : N) : tx :=
  mkTx "7xfer" now (Some (ta_tid a)) (Some (t_owner nft)) (Some (ta_to a)) None None None (ta_memo a) (Some time).

(** Configured limit as [u64], with the default when unset; [None] is the panic of [unwrap].
    src/core_nft/src/updates/icrc7.rs:49-51,59-61. *)
Definition u64_setting (o : option N) (d : N) : option N :=
  match o with Some n => u64_try n | None => Some d end.

(** [transfer_nft], src/core_nft/src/updates/icrc7.rs:13-114.  [None] is a trap. *)
Definition transfer_nft (e : env) (s : state) (a : transfer_arg) : option (state * res N) :=
  let now := e_now e in
  let '(s1, pass) := guard_sliding_window now (ta_tid a) s in
  if negb pass then Some (s1, Err (EGeneric 0 (rate_limit_msg now (ta_tid a) s1)))
  else
  match tokens s1 !! ta_tid a with
  | None => Some (s1, Err ENonExistingTokenId)
  | Some nft =>
    match check_memo s1 (ta_memo a) with
    | None => None
    | Some false => Some (s1, Err (EGeneric 0 "Exceeds Max Memo Size"))
    | Some true =>
      if negb (bool_decide (acc_owner (t_owner nft) = e_caller e))
         || bool_decide (acc_owner (ta_to a) = anonymous)
         || acc_eqb (t_owner nft) (ta_to a)
      then Some (s1, Err EInvalidRecipient)
      else
      let time := default now (ta_created a) in
      match u64_setting (c_drift (cfg s1)) default_drift with
      | None => None
      | Some drift =>
        if add64 now drift <? time then Some (s1, Err (ECreatedInFuture now))
        else
        match u64_setting (c_tx_window (cfg s1)) default_tx_window with
        | None => None
        | Some win =>
          if time <? sat_sub now (add64 win drift) then Some (s1, Err ETooOld)
          else
          let '(s2, ans) := add_transaction e (transfer_tx now nft a time) s1 in
          match ans with
          | LOk i => Some (move_token nft (ta_to a) s2, Ok i)
          | LDup n => Some (s2, Ok n)
          | _ => Some (s2, Err (EGeneric 2 ("Failed to log transaction: " ++ logans_msg ans)))
          end
        end
      end
    end
  end.

(** Sequential execution of the items of a batch; a trap in any of them traps the call.
    [args.iter().map(..).collect()], src/core_nft/src/updates/icrc7.rs:154-158; the [for] loops of
    src/core_nft/src/updates/icrc37.rs:56-60,222-226,652-656. *)
Fixpoint run_items {A B} (f : state -> A -> option (state * B)) (s : state) (l : list A)
  : option (state * list B) :=
  match l with
  | [] => Some (s, [])
  | a :: r =>
      match f s a with
      | None => None
      | Some (s1, b) =>
          match run_items f s1 r with
          | None => None
          | Some (s2, bs) => Some (s2, b :: bs)
          end
      end
  end.

(** [icrc7_transfer], src/core_nft/src/updates/icrc7.rs:116-159. *)
Definition icrc7_transfer (e : env) (s : state) (args : list transfer_arg) : option (state * list (res N)) :=
  match args with
  | [] => Some (s, [])
  | _ =>
    match usize_try (default default_max_update (c_max_update (cfg s))) with
    | None => None
    | Some mx =>
      if default false (c_atomic (cfg s)) && (mx <? nlen args)
      then Some (s, [Err (EGeneric 0 "Exceed Max allowed Update Batch Size")])
      else if bool_decide (e_caller e = anonymous)
      then Some (s, [Err (EGeneric 0 "Anonymous caller not allowed to transfer")])
      else run_items (transfer_nft e) s (take_n mx args)
    end
  end.
