(** Vocabulary of the specifications: what users observe, stated without the model's helper functions. *)
From Verif Require Import Base ModelState ModelIcrc7 ModelIcrc37 ModelManagement ModelLifecycle ModelQueries ModelStep.

(** States reached by a history of messages after an installation
    (src/core_nft/src/lifecycle/init.rs:46-188 and the calls of [op]). *)
Definition reachable (s : state) : Prop :=
  exists caller url_ok a s0 h, init caller url_ok a = Some s0 /\ s = run h s0.

(** The first [n] numbers from [k]. *)
Fixpoint count_from (k : N) (n : nat) : list N :=
  match n with O => [] | S n' => k :: count_from (k + 1) n' end.

(** Ids handed out by an event: a mint of [n] tokens answered with [k] hands out [k], ..., [k+n-1]. *)
Definition minted_ids (ev : event) : list N :=
  match ev_op ev, ev_ans ev with
  | OMint l, ANat k => count_from k (length l)
  | _, _ => []
  end.

(** Id destroyed by an event. *)
Definition burned_ids (ev : event) : list N :=
  match ev_op ev, ev_ans ev with
  | OBurn t, AOk => [t]
  | _, _ => []
  end.

(** Over a whole history, in order. *)
Definition all_minted (tr : list event) : list N := concat (map minted_ids tr).
(** See [all_minted]. *)
Definition all_burned (tr : list event) : list N := concat (map burned_ids tr).

(** An approval of [sp] that has not expired at time [now], in a set of approvals. *)
Definition approved_in (m : option appmap) (sp : account) (now : N) : Prop :=
  exists m' k ap, m = Some m' /\ m' !! akey sp = Some (k, ap) /\
    match a_expires ap with None => True | Some x => now < x end.

(** [sp] holds a live approval for token [t]; [sp] holds a live approval for the collection of [owner]. *)
Definition token_approved (s : state) (t : N) (sp : account) (now : N) : Prop := approved_in (tok_appr s !! t) sp now.
(** See [token_approved]. *)
Definition collection_approved (s : state) (owner sp : account) (now : N) : Prop :=
  approved_in (col_appr s !! akey owner) sp now.

(** The record of ownership that the answers to owner queries give. *)
Definition owners (s : state) : gmap N account := t_owner <$> tokens s.

(** ** The log as an audit trail *)

(** What a block says about ownership, read strictly: [None] is a block that contradicts the ledger so far (a mint of an
    existing token, a transfer or burn whose [from] is not the owner). *)
Definition replay_block (L : option (gmap N account)) (t : tx) : option (gmap N account) :=
  match L with
  | None => None
  | Some m =>
    if bool_decide (tx_btype t = "7mint"%string) then
      match tx_tid t, tx_to t with
      | Some i, Some a => match m !! i with None => Some (<[i := a]> m) | Some _ => None end
      | _, _ => None
      end
    else if bool_decide (tx_btype t = "7xfer"%string) || bool_decide (tx_btype t = "37xfer"%string) then
      match tx_tid t, tx_from t, tx_to t with
      | Some i, Some f, Some a =>
          match m !! i with
          | Some o => if bool_decide (akey o = akey f) then Some (<[i := a]> m) else None
          | None => None
          end
      | _, _, _ => None
      end
    else if bool_decide (tx_btype t = "7burn"%string) then
      match tx_tid t, tx_from t with
      | Some i, Some f =>
          match m !! i with
          | Some o => if bool_decide (akey o = akey f) then Some (delete i m) else None
          | None => None
          end
      | _, _ => None
      end
    else Some m
  end.

(** Ownership according to a log, from an empty ledger. *)
Definition replay (l : list tx) : option (gmap N account) := fold_left replay_block l (Some ∅).

(** The same, read leniently: the last block about a token counts. *)
Definition replay_last_block (m : gmap N account) (t : tx) : gmap N account :=
  match tx_tid t with
  | None => m
  | Some i =>
    if bool_decide (tx_btype t = "7burn"%string) then delete i m
    else if bool_decide (tx_btype t = "7mint"%string) || bool_decide (tx_btype t = "7xfer"%string)
            || bool_decide (tx_btype t = "37xfer"%string)
    then match tx_to t with Some a => <[i := a]> m | None => m end
    else m
  end.
(** See [replay_last_block]. *)
Definition replay_last (l : list tx) : gmap N account := fold_left replay_last_block l ∅.

(** The blocks of the log, oldest first, without the indices the log answered. *)
Definition blocks (s : state) : list tx := map snd (log s).

(** ** The rate limiter, as callers see it *)

(** The answer "rate limit exceeded". *)
Definition limited (r : res N) : bool :=
  match r with Err (EGeneric c m) => bool_decide (c = 0) && String.prefix "Rate limit exceeded. " m | _ => false end.

(** The two answers that refuse a whole icrc7_transfer batch before any item is looked at. *)
Definition refused_batch (r : res N) : bool :=
  match r with
  | Err (EGeneric c m) =>
      bool_decide (c = 0) && (bool_decide (m = "Exceed Max allowed Update Batch Size"%string)
                              || bool_decide (m = "Anonymous caller not allowed to transfer"%string))
  | _ => false
  end.

(** The attempts of a message: the token (0 for calls about a whole collection) and whether the limiter let it pass. *)
Definition attempts (ev : event) : list (N * bool) :=
  match ev_op ev, ev_ans ev with
  | OTransfer l, ABatch rs =>
      map (fun x => (ta_tid (fst x), negb (limited (snd x)))) (filter (fun x => refused_batch (snd x) = false) (zip l rs))
  | OApproveTokens l, ABatch rs => map (fun x => (ap_tid (fst x), negb (limited (snd x)))) (zip l rs)
  | OApproveCollection l, ABatch rs => map (fun x => (0, negb (limited (snd x)))) (zip l rs)
  | ORevokeTokens (a :: _), ABatch _ => [(rv_tid a, true)]
  | ORevokeTokens (a :: _), AErr _ => [(rv_tid a, false)]
  | ORevokeCollection l, ABatch rs => map (fun x => (0, negb (limited (snd x)))) (zip l rs)
  | OTransferFrom l, ABatch rs => map (fun x => (tf_tid (fst x), negb (limited (snd x)))) (zip l rs)
  | _, _ => []
  end.

(** All attempts of a history, in order, with their times. *)
Definition all_attempts (tr : list event) : list (N * N * bool) :=
  concat (map (fun ev => map (fun x => (e_now (ev_env ev), fst x, snd x)) (attempts ev)) tr).

(** Times of the attempts on [tid] that passed. *)
Definition passes (tid : N) (l : list (N * N * bool)) : list N :=
  map (fun x => fst (fst x)) (filter (fun x => snd (fst x) = tid /\ snd x = true) l).

(** Messages are executed at non-decreasing times. *)
Definition times_ok (h : history) : Prop := StronglySorted N.le (map (fun x => e_now (fst x)) h).

(** ** Approvals, as lookups *)

(** The approval stored for spender [sp] on token [t]; on the collection of [ow]. *)
Definition token_approval (s : state) (t : N) (sp : account) : option approval :=
  match tok_appr s !! t with Some m => snd <$> m !! akey sp | None => None end.
(** See [token_approval]. *)
Definition collection_approval (s : state) (ow sp : account) : option approval :=
  match col_appr s !! akey ow with Some m => snd <$> m !! akey sp | None => None end.

(** Messages that name token [t]. *)
Definition mentions (t : N) (o : op) : Prop :=
  match o with
  | OTransfer l => exists a, a ∈ l /\ ta_tid a = t
  | OApproveTokens l => exists a, a ∈ l /\ ap_tid a = t
  | ORevokeTokens l => exists a, a ∈ l /\ rv_tid a = t
  | OTransferFrom l => exists a, a ∈ l /\ tf_tid a = t
  | OBurn i => i = t
  | OUpdateMeta i _ => i = t
  | _ => False
  end.

(** May [sp] move token [t] of account [ow] at time [now]?  The owner itself, or the holder of a live approval. *)
Definition may_move (s : state) (t : N) (ow sp : account) (now : N) : Prop :=
  akey sp = akey ow \/ token_approved s t sp now \/ collection_approved s ow sp now.

(** A revocation that concerns spender [sp]: it names [sp], or names nobody and so concerns everyone. *)
Definition concerns (x : option account) (sp : account) : Prop :=
  match x with Some y => akey y = akey sp | None => True end.
(** See [concerns]. *)
Global Instance concerns_dec x sp : Decision (concerns x sp).
Proof. destruct x; simpl; apply _. Defined.

(** ** Paging *)

(** A client that asks for page after page, passing [key] of the last entry, until an empty page: [None] if a call traps
    or the client gives up after [fuel] calls. *)
Fixpoint walk {A P} (q : nat -> option P -> option (list A)) (key : A -> P) (fuel : nat) (prev : option P)
  : option (list A) :=
  match fuel with
  | O => None
  | S f =>
    match q f prev with
    | None => None
    | Some page =>
      match last page with
      | None => Some []
      | Some x => match walk q key f (Some (key x)) with Some r => Some (page ++ r) | None => None end
      end
    end
  end.

(** The page size asked for: given, configured or 100. *)
Definition asked (s : state) (tk : option N) : N :=
  match tk with Some n => n | None => match c_default_take (cfg s) with Some n => n | None => 100 end end.

(** The approvals stored for token [t], in any order. *)
Definition approvals_on (s : state) (t : N) : list approval :=
  match tok_appr s !! t with Some m => map (fun x => snd (snd x)) (map_to_list m) | None => [] end.
(** The approvals stored for the collection of [ow], in any order. *)
Definition approvals_of (s : state) (ow : account) : list approval :=
  match col_appr s !! akey ow with Some m => map (fun x => snd (snd x)) (map_to_list m) | None => [] end.

(** An entry of a listing shows a stored approval (all but the subaccount it was given from). *)
Definition shows (i : approval_info) (ap : approval) : Prop :=
  ai_spender i = a_spender ap /\ ai_expires i = a_expires ap /\ ai_memo i = a_memo ap /\ ai_created i = a_created ap.

(** Tokens burned in a history, with the account that owned them. *)
Definition burned_from (ev : event) : list (N * account) :=
  match ev_op ev, ev_ans ev with
  | OBurn t, AOk => match owner_of (ev_before ev) t with Some o => [(t, o)] | None => [] end
  | _, _ => []
  end.
(** See [burned_from]. *)
Definition all_burned_from (tr : list event) : list (N * account) := concat (map burned_from tr).

(** ** Management *)

(** The permission a call needs. *)
Definition required (o : op) : option permission :=
  match o with
  | OMint _ => Some PMinting
  | OUpdateMeta _ _ => Some PUpdateMetadata
  | OUpdateCollection _ => Some PUpdateCollectionMetadata
  | OGrant _ _ | ORevokePerm _ _ => Some PManageAuthorities
  | OInitUpload _ _ | OStoreChunk _ | OFinalize _ | OCancel _ => Some PUpdateUploads
  | _ => None
  end.

(** Calls that exclude each other: those above and burning. *)
Definition exclusive (o : op) : Prop := required o <> None \/ exists t, o = OBurn t.

(** [p] holds permission [q]. *)
Definition holds (s : state) (p : principal) (q : permission) : Prop :=
  exists l, perms s !! p = Some l /\ q ∈ l.

(** No upgrade happens in the middle of a call. *)
Definition calm (tr : list event) : Prop :=
  Forall (fun ev => ev_op ev = OUpgrade -> pend (ev_before ev) = ∅) tr.

(** ** Metadata *)

(** The value a list of pairs gives to a key: that of its last occurrence. *)
Fixpoint last_value (kvs : list (string * value)) (k : string) : option value :=
  match kvs with
  | [] => None
  | (k', v) :: r =>
      match last_value r k with
      | Some x => Some x
      | None => if bool_decide (k' = k) then Some v else None
      end
  end.

(** The value stored under a key of a token. *)
Definition meta_of (s : state) (t : N) (k : string) : option value := default ∅ (metas s !! t) !! k.

(** A list of pairs says of every key exactly what [f] says, each key once. *)
Definition lists (x : list (string * value)) (f : string -> option value) : Prop :=
  NoDup (map fst x) /\ forall k v, (k, v) ∈ x <-> f k = Some v.

(** No mint of the trace failed for a reason of the log. *)
Definition mints_logged (tr : list event) : Prop :=
  forall ev l m, ev ∈ tr -> ev_op ev = OMint l -> ev_ans ev <> AErr (EStorageCanisterError m).

(** ** Uploads *)

(** The record of a path as the status query sees it. *)
Definition status (s : state) (k : string) : option upload_state := u_state <$> files s !! k.

(** Which call a pending continuation belongs to. *)
Definition waits_for (p : pending) (o : op) : Prop :=
  match p, o with
  | PInit _ path _, OInitUpload path' _ => path = path'
  | PStore _ k _ _ _, OStoreChunk k' => k = k'
  | PFinalize _ k _ _ _, OFinalize k' => k = k'
  | PCancel _ k, OCancel k' => k = k'
  | _, _ => False
  end.
