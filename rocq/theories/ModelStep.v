(** The canister as a transition system: one step per message. *)
From Verif Require Import Base ModelPrincipal ModelState ModelIcrc7 ModelIcrc37 ModelManagement ModelLifecycle.

(** The update calls (and replies, and upgrades) of the canister, with their arguments.
    src/core_nft/src/updates/icrc7.rs:116, icrc37.rs:50,214,379,517,646,
    management.rs:28,123,229,326,373,409,468,588,640,656, src/core_nft/src/lifecycle/post_upgrade.rs:24. *)
Inductive op :=
| OTransfer (args : list transfer_arg)
| OApproveTokens (args : list approve_arg)
| OApproveCollection (args : list approval_info)
| ORevokeTokens (args : list revoke_arg)
| ORevokeCollection (args : list revoke_coll_arg)
| OTransferFrom (args : list transfer_from_arg)
| OUpdateCollection (u : collection_update)
| OMint (reqs : list mint_req)
| OUpdateMeta (tid : N) (kvs : list (string * value))
| OBurn (tid : N)
| OGrant (p : principal) (perm : permission)
| ORevokePerm (p : principal) (perm : permission)
| OInitUpload (path : string) (size : N)
| OStoreChunk (path : string)
| OFinalize (path : string)
| OCancel (path : string)
| OReply (id : N) (r : reply)
| OUpgrade.

(** What the caller sees: a trap, a rejection by a guard of src/core_nft/src/guards.rs:75-125, or one of the response types of
    src/core_nft/src/types/icrc7.rs, icrc37.rs, management.rs; [APending] while the call waits. *)
Inductive answer :=
| ATrap
| AReject (msg : string)
| ABatch (l : list (res N))
| AErr (e : err)
| AOk
| ANat (n : N)
| APending.

(** Answer of a batch call, e.g. src/core_nft/src/updates/icrc7.rs:116-159. *)
Definition ans_batch (s : state) (r : option (state * list (res N))) : state * answer :=
  match r with Some (s', l) => (s', ABatch l) | None => (s, ATrap) end.

(** Answer of a management call without result, e.g. src/core_nft/src/updates/management.rs:326-371. *)
Definition ans_unit (s : state) (r : option (state * mres unit)) : state * answer :=
  match r with
  | None => (s, ATrap)
  | Some (s', MReject m) => (s', AReject m)
  | Some (s', MOk _) => (s', AOk)
  | Some (s', MErr e) => (s', AErr e)
  end.

(** Answer of a management call with a number, e.g. src/core_nft/src/updates/management.rs:123-227. *)
Definition ans_nat (s : state) (r : option (state * mres N)) : state * answer :=
  match r with
  | None => (s, ATrap)
  | Some (s', MReject m) => (s', AReject m)
  | Some (s', MOk n) => (s', ANat n)
  | Some (s', MErr e) => (s', AErr e)
  end.

(** Answer of the first part of an upload call, e.g. src/core_nft/src/updates/management.rs:373-385. *)
Definition ans_upload (r : state * ures) : state * answer :=
  match r with
  | (s', None) => (s', APending)
  | (s', Some (MReject m)) => (s', AReject m)
  | (s', Some (MOk _)) => (s', AOk)
  | (s', Some (MErr e)) => (s', AErr e)
  end.

(** One message: the entry points listed at [op].  A trap leaves the state as it was (the platform rolls the message back);
    see [op] for the lines of src/core_nft/src/updates/icrc7.rs, icrc37.rs and management.rs. *)
Definition step (e : env) (o : op) (s : state) : state * answer :=
  match o with
  | OTransfer l => ans_batch s (icrc7_transfer e s l)
  | OApproveTokens l => ans_batch s (icrc37_approve_tokens e s l)
  | OApproveCollection l => ans_batch s (icrc37_approve_collection e s l)
  | ORevokeTokens l =>
      match icrc37_revoke_token_approvals e s l with
      | None => (s, ATrap)
      | Some (s', inl r) => (s', ABatch r)
      | Some (s', inr er) => (s', AErr er)
      end
  | ORevokeCollection l => ans_batch s (icrc37_revoke_collection_approvals e s l)
  | OTransferFrom l => ans_batch s (icrc37_transfer_from e s l)
  | OUpdateCollection u => ans_unit s (update_collection_metadata e s u)
  | OMint l => ans_nat s (mint e s l)
  | OUpdateMeta tid kvs => ans_nat s (update_nft_metadata e s tid kvs)
  | OBurn tid => ans_unit s (burn_nft e s tid)
  | OGrant p perm => ans_unit s (grant_permission e s p perm)
  | ORevokePerm p perm => ans_unit s (revoke_permission e s p perm)
  | OInitUpload path size => ans_upload (init_upload e s path size)
  | OStoreChunk path => ans_upload (store_chunk e s path)
  | OFinalize path => ans_upload (finalize_upload e s path)
  | OCancel path => ans_upload (cancel_upload e s path)
  | OReply id r =>
      match resume (e_now e) id r s with
      | (s', None) => (s', ATrap)
      | (s', Some (MReject m)) => (s', AReject m)
      | (s', Some (MOk _)) => (s', AOk)
      | (s', Some (MErr er)) => (s', AErr er)
      end
  | OUpgrade => (upgrade s, AOk)
  end.

(** A history: the messages executed so far, with their environments (see [step]; no counterpart in the code). *)
Definition history := list (env * op).

(** Execution of a history; the trace holds, per message, the state before, the message, the answer, the state after (see [step]). *)
Fixpoint run (h : history) (s : state) : state :=
  match h with
  | [] => s
  | (e, o) :: r => run r (fst (step e o s))
  end.

(** One entry of a trace (see [step]). *)
Record event := mkEv { ev_before : state; ev_env : env; ev_op : op; ev_ans : answer; ev_after : state }.

(** The trace of a history (see [step]). *)
Fixpoint trace (h : history) (s : state) : list event :=
  match h with
  | [] => []
  | (e, o) :: r =>
      let '(s', a) := step e o s in
      mkEv s e o a s' :: trace r s'
  end.
