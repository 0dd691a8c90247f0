(** Stored bytes: the encodings of src/core_nft/src/types/wrapped_types.rs, value_custom.rs, metadata.rs, icrc37.rs and of
    src/index_icrc7/src/wrapped_values.rs, index.rs, cache.rs.  The CBOR primitives are those of the crate minicbor
    (external, RFC 8949).  Texts are their UTF-8 bytes. *)
From Verif Require Import Base ModelState ModelIndex.

(** ** minicbor's encoder (external) *)

(** Big-endian bytes of a number; external crate. *)
Fixpoint be (k : nat) (n : N) : bytes := match k with O => [] | S j => be j (n / 256) ++ [n mod 256] end.

(** Head of an item: major type and argument in the shortest form; [Encoder::type_len], [u8], [u64]; external crate. *)
Definition head (major n : N) : bytes :=
  if n <? 24 then [32 * major + n]
  else if n <? 256 then (32 * major + 24) :: be 1 n
  else if n <? 65536 then (32 * major + 25) :: be 2 n
  else if n <? two32 then (32 * major + 26) :: be 4 n
  else (32 * major + 27) :: be 8 n.

(** [Encoder::u64] (and [u8], [u32]); external crate. *)
Definition enc_u64 (n : N) : bytes := head 0 n.
(** [Encoder::i64]; external crate. *)
Definition enc_i64 (z : Z) : bytes := if (0 <=? z)%Z then head 0 (Z.to_N z) else head 1 (Z.to_N (- 1 - z)).
(** [Encoder::bytes]; external crate. *)
Definition enc_bytes (b : bytes) : bytes := head 2 (nlen b) ++ b.
(** UTF-8 bytes of a text (the model's strings are byte strings); [Encoder::str], external crate. *)
Fixpoint string_bytes (s : string) : bytes :=
  match s with EmptyString => [] | String c r => Ascii.N_of_ascii c :: string_bytes r end.
(** See [string_bytes]. *)
Fixpoint bytes_string (b : bytes) : string :=
  match b with [] => EmptyString | x :: r => String (Ascii.ascii_of_N x) (bytes_string r) end.
(** [Encoder::str]; external crate. *)
Definition enc_str (s : string) : bytes := head 3 (nlen (string_bytes s)) ++ string_bytes s.
(** [Encoder::array], [Encoder::map], [Encoder::null]; external crate. *)
Definition enc_array (n : N) : bytes := head 4 n.
(** See [enc_array]. *)
Definition enc_map (n : N) : bytes := head 5 n.
(** See [enc_array]. *)
Definition enc_null : bytes := [246].

(** ** minicbor's decoder (external): what remains of the input after each item; [None] is an error *)

(** External crate; used by every decoder of the repository. *)
Definition parser (A : Type) := bytes -> option (A * bytes).
(** [?] in the decoders, e.g. src/core_nft/src/types/value_custom.rs:69-76. *)
Definition bind {A B} (p : parser A) (f : A -> parser B) : parser B :=
  fun b => match p b with Some (a, r) => f a r | None => None end.
(** [Ok(..)] at the end of a decoder, e.g. src/core_nft/src/types/value_custom.rs:118. *)
Definition ret {A} (a : A) : parser A := fun b => Some (a, b).
(** An error answer (or a panic: both end in a trap at [expect]), e.g. src/core_nft/src/types/value_custom.rs:72-74. *)
Definition fail {A} : parser A := fun _ => None.

(** Next byte; external crate. *)
Definition next : parser N := fun b => match b with x :: r => Some (x, r) | [] => None end.
(** The next [n] bytes, [Decoder::read_slice]; external crate. *)
Definition slice (n : N) : parser bytes := fun b =>
  if n <=? nlen b then Some (firstn (N.to_nat n) b, skipn (N.to_nat n) b) else None.
(** Number with the given big-endian bytes; external crate. *)
Definition be_num (b : bytes) : N := fold_left (fun a x => 256 * a + x) b 0.
(** Argument of an item of the given major type, [Decoder::unsigned]; indefinite lengths (31) and reserved forms are errors
    here ([array()?.unwrap()] panics on an indefinite length); external crate. *)
Definition dec_head (major : N) : parser N :=
  bind next (fun x =>
    if negb (x / 32 =? major) then fail
    else let i := x mod 32 in
         if i <? 24 then ret i
         else if i =? 24 then bind (slice 1) (fun b => ret (be_num b))
         else if i =? 25 then bind (slice 2) (fun b => ret (be_num b))
         else if i =? 26 then bind (slice 4) (fun b => ret (be_num b))
         else if i =? 27 then bind (slice 8) (fun b => ret (be_num b))
         else fail).
(** [Decoder::u64]; external crate. *)
Definition dec_u64 : parser N := dec_head 0.
(** [Decoder::u8]: larger numbers are an error; external crate. *)
Definition dec_u8 : parser N := bind (dec_head 0) (fun n => if n <? 256 then ret n else fail).
(** [Decoder::i64]: numbers outside the range are an error; external crate. *)
Definition dec_i64 : parser Z := fun b =>
  match dec_head 0 b with
  | Some (n, r) => if n <? 9223372036854775808 then Some (Z.of_N n, r) else None
  | None => bind (dec_head 1) (fun n => if n <? 9223372036854775808 then ret (- 1 - Z.of_N n)%Z else fail) b
  end.
(** [Decoder::bytes]; external crate. *)
Definition dec_bytes : parser bytes := bind (dec_head 2) slice.
(** A continuation byte of UTF-8; [core::str::from_utf8], external. *)
Definition utf8_tail (x : N) : bool := (128 <=? x) && (x <=? 191).
(** [core::str::from_utf8] succeeds: the byte sequences of table 3-7 of the Unicode standard; external. *)
Fixpoint utf8_valid (b : bytes) : bool :=
  match b with
  | [] => true
  | x :: r =>
      if x <? 128 then utf8_valid r
      else if x <? 194 then false
      else if x <? 224 then
        match r with y :: r1 => utf8_tail y && utf8_valid r1 | [] => false end
      else if x <? 240 then
        match r with
        | y :: z :: r2 =>
            utf8_tail y && (if x =? 224 then 160 <=? y else true) && (if x =? 237 then y <=? 159 else true) &&
            utf8_tail z && utf8_valid r2
        | _ => false
        end
      else if x <? 245 then
        match r with
        | y :: z :: w :: r3 =>
            utf8_tail y && (if x =? 240 then 144 <=? y else true) && (if x =? 244 then y <=? 143 else true) &&
            utf8_tail z && utf8_tail w && utf8_valid r3
        | _ => false
        end
      else false
  end.
(** [Decoder::str]: bytes that are not UTF-8 are an error; external crate. *)
Definition dec_str : parser string :=
  bind (dec_head 3) (fun n => bind (slice n) (fun b => if utf8_valid b then ret (bytes_string b) else fail)).
(** [Decoder::array], [Decoder::map]; external crate. *)
Definition dec_array : parser N := dec_head 4.
(** See [dec_array]. *)
Definition dec_map : parser N := dec_head 5.
(** [d.datatype()? == Type::Null] and [d.null()]; external crate. *)
Definition dec_opt {A} (p : parser A) : parser (option A) := fun b =>
  match b with
  | 246 :: r => Some (None, r)
  | _ => bind p (fun a => ret (Some a)) b
  end.
(** [for _ in 0..n { .. }] collecting the items, e.g. src/core_nft/src/types/value_custom.rs:98-101. *)
Fixpoint times {A} (n : nat) (p : parser A) : parser (list A) :=
  match n with
  | O => ret []
  | S k => bind p (fun a => bind (times k p) (fun l => ret (a :: l)))
  end.

(** ** Token ids and accounts *)

(** [WrappedNat::encode], src/core_nft/src/types/wrapped_types.rs:33-42, src/index_icrc7/src/wrapped_values.rs:45-54; [None] is
    the panic of [unwrap]. *)
Definition enc_nat (n : N) : option bytes := if n <? two64 then Some (enc_u64 n) else None.
(** [WrappedNat::decode], src/core_nft/src/types/wrapped_types.rs:44-52, src/index_icrc7/src/wrapped_values.rs:56-64. *)
Definition dec_nat : parser N := dec_u64.

(** [WrappedAccount::encode], src/core_nft/src/types/wrapped_types.rs:79-93, src/index_icrc7/src/wrapped_values.rs:108-122. *)
Definition enc_account (a : account) : bytes :=
  enc_array 2 ++ enc_bytes (acc_owner a) ++ match acc_sub a with Some s => enc_bytes s | None => enc_null end.
(** [WrappedAccount::decode], src/core_nft/src/types/wrapped_types.rs:95-122, src/index_icrc7/src/wrapped_values.rs:124-151:
    [Principal::from_slice] panics above 29 bytes, [copy_from_slice] unless there are 32. *)
Definition dec_account : parser account :=
  bind dec_array (fun n =>
    if negb (n =? 2) then fail
    else bind dec_bytes (fun o => bind (dec_opt dec_bytes) (fun s =>
      if (nlen o <=? 29) && match s with Some x => nlen x =? 32 | None => true end then ret (mkAcc o s) else fail))).

(** ** Values *)

(** All the encodings, or [None] if one panics: the loops of [CustomValue::encode],
    src/core_nft/src/types/value_custom.rs:48-62. *)
Fixpoint all_some {A} (l : list (option A)) : option (list A) :=
  match l with
  | [] => Some []
  | x :: r => match x, all_some r with Some a, Some b => Some (a :: b) | _, _ => None end
  end.

(** [CustomValue::encode], src/core_nft/src/types/value_custom.rs:25-66, src/index_icrc7/src/wrapped_values.rs:170-211; [None] is
    the panic of [unwrap] on a number that does not fit. *)
Fixpoint enc_value (v : value) : option bytes :=
  match v with
  | VBlob b => Some (enc_array 2 ++ enc_u64 0 ++ enc_bytes b)
  | VText s => Some (enc_array 2 ++ enc_u64 1 ++ enc_str s)
  | VNat n => if n <? two64 then Some (enc_array 2 ++ enc_u64 2 ++ enc_u64 n) else None
  | VInt z => if ((-9223372036854775808 <=? z) && (z <=? 9223372036854775807))%Z
              then Some (enc_array 2 ++ enc_u64 3 ++ enc_i64 z) else None
  | VArray l =>
      match all_some (map enc_value l) with
      | Some bs => Some (enc_array 2 ++ enc_u64 4 ++ enc_array (nlen l) ++ concat bs)
      | None => None
      end
  | VMap l =>
      match all_some (map (fun kv => match enc_value (snd kv) with Some b => Some (enc_str (fst kv) ++ b) | None => None end) l) with
      | Some bs => Some (enc_array 2 ++ enc_u64 5 ++ enc_map (nlen l) ++ concat bs)
      | None => None
      end
  end.

(** [BTreeMap::insert] on the sorted association list, src/core_nft/src/types/value_custom.rs:110. *)
Fixpoint bt_insert (k : string) (v : value) (l : list (string * value)) : list (string * value) :=
  match l with
  | [] => [(k, v)]
  | (k', v') :: r =>
      if bool_decide (k = k') then (k, v) :: r
      else if String.leb k k' then (k, v) :: l else (k', v') :: bt_insert k v r
  end.

(** [CustomValue::decode], src/core_nft/src/types/value_custom.rs:68-120, src/index_icrc7/src/wrapped_values.rs:213-265; the fuel
    bounds the depth of the recursion. *)
Fixpoint dec_value (fuel : nat) : parser value :=
  match fuel with
  | O => fail
  | S f =>
    bind dec_array (fun n =>
      if negb (n =? 2) then fail
      else bind dec_u8 (fun tag =>
        if tag =? 0 then bind dec_bytes (fun b => ret (VBlob b))
        else if tag =? 1 then bind dec_str (fun s => ret (VText s))
        else if tag =? 2 then bind dec_u64 (fun n => ret (VNat n))
        else if tag =? 3 then bind dec_i64 (fun z => ret (VInt z))
        else if tag =? 4 then bind dec_array (fun n => bind (times (N.to_nat n) (dec_value f)) (fun l => ret (VArray l)))
        else if tag =? 5 then
          bind dec_map (fun n =>
            bind (times (N.to_nat n) (bind dec_str (fun k => bind (dec_value f) (fun v => ret (k, v)))))
              (fun l => ret (VMap (fold_left (fun m kv => bt_insert (fst kv) (snd kv) m) l []))))
        else fail))
  end.

(** [CustomValue::from_bytes]: bytes after the value are ignored; [None] is the panic of [expect].
    src/core_nft/src/types/value_custom.rs:18-20. *)
Definition value_from_bytes (b : bytes) : option value := fst <$> dec_value (S (length b)) b.

(** ** Metadata of a token *)

(** [MetadataData::encode], src/core_nft/src/types/metadata.rs:36-49. *)
Definition enc_metadata (m : gmap string value) : option bytes :=
  match all_some (map (fun kv => match enc_value (snd kv) with Some b => Some (enc_str (fst kv) ++ b) | None => None end)
                    (sorted_pairs m)) with
  | Some bs => Some (enc_map (N.of_nat (size m)) ++ concat bs)
  | None => None
  end.
(** [MetadataData::decode], src/core_nft/src/types/metadata.rs:51-62. *)
Definition dec_metadata (fuel : nat) : parser (gmap string value) :=
  bind dec_map (fun n =>
    bind (times (N.to_nat n) (bind dec_str (fun k => bind (dec_value fuel) (fun v => ret (k, v)))))
      (fun l => ret (fold_left (fun m kv => <[fst kv := snd kv]> m) l ∅))).

(** ** Approvals *)

(** Option of a number or a byte vector in a derived encoding ([Vec<u8>] is an array of numbers); external crate. *)
Definition enc_byte_vec (b : bytes) : bytes := enc_array (nlen b) ++ concat (map enc_u64 b).
(** See [enc_byte_vec]. *)
Definition dec_byte_vec : parser bytes := bind dec_array (fun n => times (N.to_nat n) dec_u8).

(** Derived [Encode for Approval]: an array of the fields, [None] as null, a trailing [None] left out.
    src/core_nft/src/types/icrc37.rs:19-31. *)
Definition enc_approval (a : approval) : bytes :=
  enc_array (match a_memo a with Some _ => 5 | None => 4 end)
  ++ enc_account (a_spender a) ++ enc_account (a_from a)
  ++ match a_expires a with Some x => enc_u64 x | None => enc_null end
  ++ enc_u64 (a_created a)
  ++ match a_memo a with Some b => enc_byte_vec b | None => [] end.
(** Derived [Decode for Approval], src/core_nft/src/types/icrc37.rs:19-31 (arrays of more than five items, which are never
    written, are not modelled). *)
Definition dec_approval : parser approval :=
  bind dec_array (fun n =>
    if (n =? 4) || (n =? 5) then
      bind dec_account (fun sp => bind dec_account (fun fr => bind (dec_opt dec_u64) (fun ex => bind dec_u64 (fun cr =>
        if n =? 5 then bind (dec_opt dec_byte_vec) (fun me => ret (mkAppr sp fr ex cr me))
        else ret (mkAppr sp fr ex cr None)))))
    else fail).

(** [WrappedApprovalValue::encode] with the entries in the iteration order of the hash map,
    src/core_nft/src/types/wrapped_types.rs:140-153. *)
Definition enc_approvals (l : list (account * approval)) : bytes :=
  enc_map (nlen l) ++ concat (map (fun x => enc_account (fst x) ++ enc_approval (snd x)) l).
(** [WrappedApprovalValue::decode], src/core_nft/src/types/wrapped_types.rs:155-167. *)
Definition dec_approvals : parser appmap :=
  bind dec_map (fun n =>
    bind (times (N.to_nat n) (bind dec_account (fun k => bind dec_approval (fun a => ret (k, a)))))
      (fun l => ret (fold_left (fun m x => appmap_insert (fst x) (snd x) m) l ∅))).

(** ** Index keys, index entries, cache entries *)

(** Keys as the callers write them, src/index_icrc7/src/index.rs:25-36. *)
Inductive rawkey := RAccount (a : account) | RType (s : string) | RToken (n : N).

(** Derived [Encode for IndexType]: variant number and array of its fields, src/index_icrc7/src/index.rs:25-36. *)
Definition enc_key (k : rawkey) : option bytes :=
  match k with
  | RAccount a => Some (enc_array 2 ++ enc_u64 0 ++ enc_array 1 ++ enc_account a)
  | RType s => Some (enc_array 2 ++ enc_u64 1 ++ enc_array 1 ++ enc_str s)
  | RToken n => match enc_nat n with Some b => Some (enc_array 2 ++ enc_u64 2 ++ enc_array 1 ++ b) | None => None end
  end.
(** Derived [Decode for IndexType], src/index_icrc7/src/index.rs:25-36. *)
Definition dec_key : parser rawkey :=
  bind dec_array (fun n => if negb (n =? 2) then fail else
    bind dec_u64 (fun tag => bind dec_array (fun m => if negb (m =? 1) then fail else
      if tag =? 0 then bind dec_account (fun a => ret (RAccount a))
      else if tag =? 1 then bind dec_str (fun s => ret (RType s))
      else if tag =? 2 then bind dec_nat (fun n => ret (RToken n))
      else fail))).

(** [IndexValue]: [Vec<u64>], src/index_icrc7/src/index.rs:38-39,65-78. *)
Definition enc_ids (l : list N) : bytes := enc_array (nlen l) ++ concat (map enc_u64 l).
(** See [enc_ids]. *)
Definition dec_ids : parser (list N) := bind dec_array (fun n => times (N.to_nat n) dec_u64).

(** Little-endian bytes, [u64::to_le_bytes]; standard library. *)
Fixpoint le (k : nat) (n : N) : bytes := match k with O => [] | S j => n mod 256 :: le j (n / 256) end.
(** [u64::from_le_bytes]; standard library. *)
Fixpoint le_num (b : bytes) : N := match b with [] => 0 | x :: r => x + 256 * le_num r end.
(** [CacheEntry::to_bytes], src/index_icrc7/src/cache.rs:14-22. *)
Definition enc_entry (e : N * value) : option bytes :=
  match enc_value (snd e) with Some b => Some (le 8 (fst e) ++ b) | None => None end.
(** [CacheEntry::from_bytes], src/index_icrc7/src/cache.rs:24-41. *)
Definition entry_from_bytes (b : bytes) : option (N * value) :=
  if nlen b <? 8 then None
  else match value_from_bytes (skipn 8 b) with Some v => Some (le_num (firstn 8 b), v) | None => None end.
