(** The index canister: src/index_icrc7/src/.  Timers, user calls and the replies of the ledger and its archives are the
    messages; a call that waits for a reply is kept in the state as a task. *)
From Verif Require Import Base ModelPrincipal ModelState.

(** [BlockWithId] (icrc_ledger_types): id and content, src/index_icrc7/src/blocks.rs:10. *)
Definition block := (N * value)%type.

(** ** Block types *)

(** [BlockType], src/index_icrc7/src/blocks.rs:14-25. *)
Inductive btype := BTransfer | BTransferFrom | BUpdate | BMint | BBurn | BApprove | BCollApprove | BRevoke | BRevokeColl.
(** Comparison of block types (derived), src/index_icrc7/src/blocks.rs:14. *)
Global Instance btype_eqdec : EqDecision btype.
Proof. solve_decision. Defined.

(** [BlockType::from_str], src/index_icrc7/src/blocks.rs:54-71; lower-casing is modelled on ASCII. *)
Definition btype_parse (s : string) : option btype :=
  let l := lowercase s in
  if bool_decide (l = "7xfer"%string) then Some BTransfer
  else if bool_decide (l = "7mint"%string) then Some BMint
  else if bool_decide (l = "7burn"%string) then Some BBurn
  else if bool_decide (l = "37approve"%string) then Some BApprove
  else if bool_decide (l = "37xfer"%string) then Some BTransferFrom
  else if bool_decide (l = "37approve_coll"%string) then Some BCollApprove
  else if bool_decide (l = "37revoke"%string) then Some BRevoke
  else if bool_decide (l = "37revoke_coll"%string) then Some BRevokeColl
  else if bool_decide (l = "7update_token"%string) then Some BUpdate
  else None.

(** [BlockType::to_string], src/index_icrc7/src/blocks.rs:73-87. *)
Definition btype_text (b : btype) : string :=
  match b with
  | BTransfer => "7xfer" | BMint => "7mint" | BBurn => "7burn" | BApprove => "37approve" | BTransferFrom => "37xfer"
  | BCollApprove => "37approve_coll" | BRevoke => "37revoke" | BRevokeColl => "37revoke_coll" | BUpdate => "7update_token"
  end.

(** ** What a block is about *)

(** [BTreeMap::get] on the content of a block, src/index_icrc7/src/blocks.rs:117,129,174-183. *)
Fixpoint vget (m : list (string * value)) (k : string) : option value :=
  match m with
  | [] => None
  | (k', v) :: r => if bool_decide (k' = k) then Some v else vget r k
  end.

(** The map under "tx", src/index_icrc7/src/blocks.rs:174 and the other extractors. *)
Definition tx_map (d : value) : option (list (string * value)) :=
  match d with
  | VMap m => match vget m "tx" with Some (VMap t) => Some t | _ => None end
  | _ => None
  end.

(** One account field: pushed if it is a text that parses as a principal ([WrappedAccount::from_str],
    src/index_icrc7/src/wrapped_values.rs:75-90), e.g. src/index_icrc7/src/blocks.rs:175-184. *)
Definition named_account (t : list (string * value)) (k : string) : list account :=
  match vget t k with
  | Some (VText s) => match principal_parse s with Some p => [mkAcc p None] | None => [] end
  | _ => []
  end.

(** Fields looked at for each type, in order: [get_block_instance], src/index_icrc7/src/blocks.rs:89-101, with
    [extract_accounts], src/index_icrc7/src/blocks.rs:170-190,211-226,247-267,
    288-308,329-354,362-377,398-413,421-441,462-482. *)
Definition account_fields (b : btype) : list string :=
  match b with
  | BTransfer => ["from"; "to"]
  | BMint => ["to"]
  | BBurn => ["from"; "to"]
  | BApprove => ["from"; "spender"]
  | BTransferFrom => ["from"; "spender"; "to"]
  | BUpdate => ["from"]
  | BCollApprove => ["from"]
  | BRevoke => ["from"; "spender"]
  | BRevokeColl => ["from"; "spender"]
  end%string.

(** [extract_accounts(..).unwrap_or_default()], src/index_icrc7/src/index.rs:94. *)
Definition extract_accounts (b : btype) (d : value) : list account :=
  match tx_map d with
  | Some t => concat (map (named_account t) (account_fields b))
  | None => []
  end.

(** Types whose token id is not extracted, src/index_icrc7/src/blocks.rs:356-358,415-417,484-486. *)
Definition without_token (b : btype) : bool :=
  match b with BTransferFrom | BCollApprove | BRevokeColl => true | _ => false end.

(** [extract_token_id(..).unwrap_or_default()], src/index_icrc7/src/index.rs:95, with the extractors of
    src/index_icrc7/src/blocks.rs:192-207,228-243,269-284,310-325,379-394,443-458. *)
Definition extract_token_id (b : btype) (d : value) : option N :=
  if without_token b then None
  else match tx_map d with
       | Some t => match vget t "tid" with Some (VNat n) => Some n | _ => None end
       | None => None
       end.

(** ** The index *)

(** [IndexType], src/index_icrc7/src/index.rs:25-36; accounts are compared by owner and effective subaccount. *)
Inductive ikey := KAccount (k : acckey) | KType (s : string) | KToken (n : N).
(** Comparison of index keys (derived), src/index_icrc7/src/index.rs:25-27. *)
Global Instance ikey_eqdec : EqDecision ikey.
Proof. solve_decision. Defined.
(** Index keys as map keys, src/index_icrc7/src/index.rs:45. *)
Global Program Instance ikey_countable : Countable ikey :=
  inj_countable' (fun k => match k with KAccount a => inl a | KType s => inr (inl s) | KToken n => inr (inr n) end)
    (fun x => match x with inl a => KAccount a | inr (inl s) => KType s | inr (inr n) => KToken n end) _.
Next Obligation. intros []; reflexivity. Qed.

(** The stable map from keys to block ids, newest first, src/index_icrc7/src/index.rs:38-50. *)
Notation index := (gmap ikey (list N)).

(** One entry: get, push_front, insert; [None] is the panic of the key encoder on a token id of 2^64 or more
    (src/index_icrc7/src/wrapped_values.rs:45-54).  src/index_icrc7/src/index.rs:103-113,115-123,126-134. *)
Definition push_front (id : N) (ix : option index) (k : ikey) : option index :=
  match ix with
  | None => None
  | Some m =>
    if match k with KToken n => n <? two64 | _ => true end
    then Some (<[k := id :: default [] (m !! k)]> m) else None
  end.

(** Keys under which a block of type [b] is entered, in order, src/index_icrc7/src/index.rs:103,115,125. *)
Definition entry_keys (b : btype) (d : value) : list ikey :=
  map (fun a => KAccount (akey a)) (extract_accounts b d) ++ [KType (btype_text b)]
  ++ match extract_token_id b d with Some n => [KToken n] | None => [] end.

(** The type of a block, src/index_icrc7/src/index.rs:83-91; [None] is an error answer. *)
Definition block_type (d : value) : option btype :=
  match d with
  | VMap m => match vget m "btype" with Some (VText s) => btype_parse s | _ => None end
  | _ => None
  end.

(** Result of a computation that may answer an error or trap, src/index_icrc7/src/index.rs:80 ([Result<(), String>]). *)
Inductive outcome (A : Type) := Done (a : A) | Fail | Trap.
Arguments Done {A} _.
Arguments Fail {A}.
Arguments Trap {A}.

(** [add_block_to_index], src/index_icrc7/src/index.rs:80-139. *)
Definition add_block_to_index (bl : block) (ix : index) : outcome index :=
  match block_type (snd bl) with
  | None => Fail
  | Some b =>
    if fst bl <? two64 then
      match fold_left (push_front (fst bl)) (entry_keys b (snd bl)) (Some ix) with
      | Some ix' => Done ix'
      | None => Trap
      end
    else Trap
  end.

(** Loop of [update_index], src/index_icrc7/src/jobs.rs:46-57: count of entered blocks; stops at the first error.
    [None] is a trap. *)
Fixpoint add_blocks (l : list block) (n : N) (ix : index) : option (N * index) :=
  match l with
  | [] => Some (n, ix)
  | bl :: r =>
    match add_block_to_index bl ix with
    | Done ix' => add_blocks r (add64 n 1) ix'
    | Fail => Some (n, ix)
    | Trap => None
    end
  end.

(** ** Fetching blocks *)

(** [a..b] collected, src/index_icrc7/src/jobs.rs:41, src/index_icrc7/src/update/get_blocks.rs:20. *)
Fixpoint count_up (a : N) (n : nat) : list N := match n with O => [] | S k => a :: count_up (a + 1) k end.
(** See [count_up].  (The memory needed for a huge range is not modelled.) *)
Definition range (a b : N) : list N := count_up a (N.to_nat (b - a)).

(** [group_consecutive_block_ids], src/index_icrc7/src/blocks.rs:607-627: [cur] is the open chunk, reversed. *)
Fixpoint group_from (cur : list N) (prev : N) (l : list N) : list (list N) :=
  match l with
  | [] => [rev cur]
  | x :: r => if x =? add64 prev 1 then group_from (x :: cur) x r else rev cur :: group_from [x] x r
  end.
(** See [group_from]. *)
Definition group_consecutive (l : list N) : list (list N) :=
  match l with [] => [] | x :: r => group_from [x] x r end.

(** [CacheEntry]: time and content; the cache, src/index_icrc7/src/cache.rs:7-10,50. *)
Notation cache := (gmap N (N * value)).

(** [try_get_value], src/index_icrc7/src/cache.rs:56-58. *)
Definition try_get_value (c : cache) (id : N) : option value := snd <$> c !! id.

(** The blocks found in the cache and the ids not found, src/index_icrc7/src/blocks.rs:497-511. *)
Definition cached_blocks (c : cache) (ids : list N) : list block :=
  concat (map (fun i => match try_get_value c i with Some v => [(i, v)] | None => [] end) ids).
(** See [cached_blocks]. *)
Definition uncached_ids (c : cache) (ids : list N) : list N :=
  filter (fun i => try_get_value c i = None) ids.

(** Requests to the ledger: start and length of each chunk, src/index_icrc7/src/blocks.rs:529-548. *)
Definition chunk_request (l : list N) : N * N := (hd 0 l, nlen l).
(** See [chunk_request]. *)
Definition chunk_requests (c : cache) (ids : list N) : list (N * N) :=
  map chunk_request (group_consecutive (merge_sort N.le (uncached_ids c ids))).

(** Insertion of received blocks into the cache, src/index_icrc7/src/blocks.rs:556-564,567-575 and
    src/index_icrc7/src/cache.rs:86-91; ids of 2^64 or more are not cached; [None] is the panic of the encoder. *)
Fixpoint insert_values (now : N) (l : list block) (c : cache) : option cache :=
  match l with
  | [] => Some c
  | (i, v) :: r =>
    if i <? two64 then
      if encodable v then insert_values now r (<[i := (now, v)]> c) else None
    else insert_values now r c
  end.

(** Order of the answer, src/index_icrc7/src/blocks.rs:515-525,578-588.  (Rust's sort is stable; the order among blocks with
    equal ids is not modelled.) *)
Definition id_le (a b : block) : Prop := fst a <= fst b.
(** See [id_le]. *)
Definition id_ge (a b : block) : Prop := fst b <= fst a.
(** See [id_le]. *)
Global Instance id_le_dec : forall a b, Decision (id_le a b).
Proof. intros. unfold id_le. apply _. Defined.
(** See [id_ge]. *)
Global Instance id_ge_dec : forall a b, Decision (id_ge a b).
Proof. intros. unfold id_ge. apply _. Defined.
(** See [id_le]. *)
Definition sort_blocks (desc : bool) (l : list block) : list block :=
  if desc then merge_sort id_ge l else merge_sort id_le l.

(** ** Messages *)

(** What a task does with its blocks: the index update that began at a height (src/index_icrc7/src/jobs.rs:37-65), or a
    user's request in ascending or descending order (src/index_icrc7/src/update/get_blocks.rs:8-34). *)
Inductive kind := KUpdate (from : N) | KGet (desc : bool).

(** A call waiting in [get_all_blocks], src/index_icrc7/src/blocks.rs:489-591: the ids asked for, the blocks received so far,
    the archives of the current chunk still to ask with the blocks the ledger itself gave, and the chunks to request (the
    first one has been requested if no archive is waited for). *)
Record task := mkTask {
  k_kind : kind;
  k_ids : list N;
  k_got : list block;
  k_arch : list (list (N * N));
  k_direct : list block;
  k_chunks : list (N * N)
}.

(** State of the index canister: [last_block_id] (src/index_icrc7/src/state.rs:46), the two stable maps, waiting tasks. *)
Record istate := mkIst {
  x_last : N;
  x_index : index;
  x_cache : cache;
  x_tasks : gmap N task;
  x_next : N
}.

(** Replies: the ledger's blocks with the archive requests for the others ([GetBlocksResult]), an archive's blocks, or a
    failed call.  src/index_icrc7/src/blocks.rs:541-554. *)
Inductive ireply := RLedger (archives : list (list (N * N))) (blocks : list block) | RArchive (blocks : list block) | RFail.

(** Messages of the canister: the two timers (src/index_icrc7/src/jobs.rs:15-35), [get_blocks], replies, upgrade. *)
Inductive iop :=
| IUpdate
| ICleanup
| IGet (start length : N) (filters : list ikey) (sort : option bool)
| IReply (id : N) (r : ireply)
| IUpgrade.

(** Answers, src/index_icrc7/src/update/get_blocks.rs:31-33,81-86; [INone] for timers, [IWait] while a reply is awaited. *)
Inductive ianswer := INone | ITrap | IWait (id : N) | IBlocks (blocks : list block) (total : N).

(** End of a task that has all its blocks, src/index_icrc7/src/jobs.rs:44-65,
    src/index_icrc7/src/update/get_blocks.rs:31-33,81-82. *)
Definition finish (k : kind) (got : list block) (s : istate) : option (istate * ianswer) :=
  match k with
  | KUpdate n =>
    match add_blocks (sort_blocks false got) n (x_index s) with
    | Some (n', ix) => Some (mkIst n' ix (x_cache s) (x_tasks s) (x_next s), INone)
    | None => None
    end
  | KGet desc => Some (s, IBlocks (sort_blocks desc got) (x_last s))
  end.

(** Add or remove a task: an [await], src/index_icrc7/src/blocks.rs:541-554. *)
Definition set_tasks (t : gmap N task) (s : istate) : istate := mkIst (x_last s) (x_index s) (x_cache s) t (x_next s).
(** New content of the cache, src/index_icrc7/src/cache.rs:50. *)
Definition set_cache (c : cache) (s : istate) : istate := mkIst (x_last s) (x_index s) c (x_tasks s) (x_next s).

(** [get_all_blocks] up to its first wait, or to the end if the cache has everything: src/index_icrc7/src/blocks.rs:489-535. *)
Definition begin_fetch (k : kind) (ids : list N) (s : istate) : option (istate * ianswer) :=
  let got := cached_blocks (x_cache s) ids in
  match chunk_requests (x_cache s) ids with
  | [] => finish k got s
  | chunks => Some (mkIst (x_last s) (x_index s) (x_cache s)
                      (<[x_next s := mkTask k ids got [] [] chunks]> (x_tasks s)) (x_next s + 1), IWait (x_next s))
  end.

(** After the blocks of a chunk are complete: the next chunk or the end, src/index_icrc7/src/blocks.rs:537,578-590. *)
Definition next_chunk (id : N) (t : task) (got : list block) (s : istate) : option (istate * ianswer) :=
  match tail (k_chunks t) with
  | [] => finish (k_kind t) got (set_tasks (delete id (x_tasks s)) s)
  | rest => Some (set_tasks (<[id := mkTask (k_kind t) (k_ids t) got [] [] rest]> (x_tasks s)) s, IWait id)
  end.

(** A reply arrives, src/index_icrc7/src/blocks.rs:541-576; [None] is a trap of this message: its effects are undone and the
    task is gone. *)
Definition receive (now id : N) (t : task) (r : ireply) (s : istate) : option (istate * ianswer) :=
  match k_arch t, r with
  | [], RLedger [] bs =>
      match insert_values now bs (x_cache s) with
      | Some c => next_chunk id t (k_got t ++ bs) (set_cache c s)
      | None => None
      end
  | [], RLedger arch bs =>
      Some (set_tasks (<[id := mkTask (k_kind t) (k_ids t) (k_got t) arch bs (k_chunks t)]> (x_tasks s)) s, IWait id)
  | [_], RArchive bs =>
      match insert_values now (bs ++ k_direct t) (x_cache s) with
      | Some c => next_chunk id t (k_got t ++ bs ++ k_direct t) (set_cache c s)
      | None => None
      end
  | _ :: rest, RArchive bs =>
      match insert_values now bs (x_cache s) with
      | Some c => Some (set_tasks (<[id := mkTask (k_kind t) (k_ids t) (k_got t ++ bs) rest (k_direct t) (k_chunks t)]> (x_tasks s))
                          (set_cache c s), IWait id)
      | None => None
      end
  | _, _ => None
  end.

(** The ids under all filters, sorted: src/index_icrc7/src/update/get_blocks.rs:42-68. *)
Definition combined_ids (ix : index) (filters : list ikey) : list N :=
  match map (fun k => default [] (ix !! k)) filters with
  | [] => []
  | l :: r => merge_sort N.le (fold_left (fun res f => filter (fun i => i ∈ f) res) r l)
  end.

(** Truncation [as usize] on wasm32: src/index_icrc7/src/update/get_blocks.rs:70-71. *)
Definition as_usize (n : N) : N := n mod two32.

(** The slice of the page, src/index_icrc7/src/update/get_blocks.rs:70-80: [None] is the panic of a slice whose end is before
    its start. *)
Definition filter_page (ids : list N) (start len : N) : option (list N) :=
  let a := as_usize start in
  let b := as_usize (add64 start len) in
  if nlen ids <=? a then Some []
  else let b' := N.min b (nlen ids) in
       if b' <? a then None else Some (take_n (b' - a) (skip_n a ids)).

(** [get_blocks] up to its first wait, src/index_icrc7/src/update/get_blocks.rs:8-87. *)
Definition get_blocks (start len : N) (filters : list ikey) (sort : option bool) (s : istate) : option (istate * ianswer) :=
  let desc := default false sort in
  match filters with
  | [] =>
    let start' := if desc then x_last s - len else start in
    begin_fetch (KGet desc) (range start' (add64 start' len)) s
  | _ =>
    match filter_page (combined_ids (x_index s) filters) start len with
    | Some ids => begin_fetch (KGet desc) ids s
    | None => None
    end
  end.

(** [remove_all_values_older_than], src/index_icrc7/src/cache.rs:69-84: the temporary [cache.borrow()] lives until the end of
    the statement, so that the first [borrow_mut] in the loop panics; [None] is that panic. *)
Definition remove_all_values_older_than (now : N) (c : cache) : option cache :=
  if existsb (fun e => fst (snd e) <? now) (map_to_list c) then None else Some c.

(** Effects of a message; a trap leaves the state as it was (rule of the platform): the panics of
    src/index_icrc7/src/wrapped_values.rs:45-54 and src/index_icrc7/src/update/get_blocks.rs:70-80. *)
Definition or_trap (s : istate) (r : option (istate * ianswer)) : istate * ianswer :=
  match r with Some x => x | None => (s, ITrap) end.

(** All messages.  src/index_icrc7/src/jobs.rs:23-65, src/index_icrc7/src/update/get_blocks.rs:8-34,
    src/index_icrc7/src/lifecycle/pre_upgrade.rs:8-22 (the height is serialized, the maps are stable, tasks are lost). *)
Definition istep (now : N) (o : iop) (s : istate) : istate * ianswer :=
  match o with
  | IUpdate => or_trap s (begin_fetch (KUpdate (x_last s)) (range (x_last s) (add64 (x_last s) 100)) s)
  | ICleanup => match remove_all_values_older_than now (x_cache s) with
                | Some c => (set_cache c s, INone)
                | None => (s, ITrap)
                end
  | IGet start len filters sort => or_trap s (get_blocks start len filters sort s)
  | IReply id r =>
      match x_tasks s !! id with
      | None => (s, INone)
      | Some t => or_trap (set_tasks (delete id (x_tasks s)) s) (receive now id t r s)
      end
  | IUpgrade => (set_tasks ∅ s, INone)
  end.

(** Installation, src/index_icrc7/src/state.rs:50-58, src/index_icrc7/src/lifecycle/init.rs:8-43. *)
Definition istart : istate := mkIst 0 ∅ ∅ ∅ 0.

(** [status], src/index_icrc7/src/queries/queries.rs:6-11. *)
Definition istatus (s : istate) : N := x_last s.
