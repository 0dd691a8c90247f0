(** The command-line tool (cmdline/): uploads, permission names, metadata arguments, JSON metadata. *)
From Verif Require Import Base ModelPrincipal ModelState ModelManagement ModelCodec.

(** ** Uploading a file: cmdline/src/calls/uploads.rs *)

(** Calls sent to the canister, cmdline/src/calls/uploads.rs:10-49; the destination path and the hash, the same in all calls,
    are left out. *)
Inductive cli_call :=
| CInit (file_size chunk_size : N)
| CStore (chunk_id : N) (chunk_data : bytes)
| CFinalize.

(** What becomes of a call: [call_and_wait] fails (rejected, trapped, not delivered), or the canister answers [Ok] or [Err].
    ic_agent, external. *)
Inductive cli_reply := RFail | ROk | RErr.

(** Answer of [upload_file]; a panic is a division by zero or a vector that is too large.
    cmdline/src/calls/uploads.rs:52-115. *)
Inductive cli_result := UOk | UErr | UPanic.

(** [init] and [store] look only at whether the call was delivered: the canister's answer is never decoded.
    cmdline/src/calls/uploads.rs:10-32. *)
Definition delivered (r : cli_reply) : bool := match r with RFail => false | _ => true end.

(** [finalize] decodes the answer (parsing of the URL is left out).  cmdline/src/calls/uploads.rs:34-49. *)
Definition finalized (r : cli_reply) : bool := match r with ROk => true | _ => false end.

(** [file.read(&mut chunk_data)]: [rd i n m] is the answer of the [i]-th call for [n] bytes when [m] remain ([None]: error).
    Operating system, external; cmdline/src/calls/uploads.rs:86. *)
Definition read_oracle := N -> N -> N -> option N.

(** Loop over the chunks: [k] rounds to go, next chunk [i], unread part [rest]; answers the calls sent and whether the loop
    ended without error.  cmdline/src/calls/uploads.rs:84-104. *)
Fixpoint send_chunks (rd : read_oracle) (reply : cli_call -> cli_reply) (chunk_size : N) (k : nat) (i : N) (rest : bytes)
  : list cli_call * bool :=
  match k with
  | O => ([], true)
  | S k' =>
      match rd i chunk_size (nlen rest) with
      | None => ([], false)
      | Some n =>
          if n =? 0 then ([], true)
          else
            let c := CStore i (firstn (N.to_nat n) rest) in
            if delivered (reply c) then
              let '(cs, ok) := send_chunks rd reply chunk_size k' (i + 1) (skipn (N.to_nat n) rest) in (c :: cs, ok)
            else ([c], false)
      end
  end.

(** [upload_file], cmdline/src/calls/uploads.rs:52-115; [metadata.len()] is taken to be the length of the file, and the file is
    not changed meanwhile. *)
Definition upload_file (rd : read_oracle) (reply : cli_call -> cli_reply) (file : bytes) (chunk_size : N)
  : list cli_call * cli_result :=
  let init := CInit (nlen file) chunk_size in
  if negb (delivered (reply init)) then ([init], UErr)
  else if chunk_size =? 0 then ([init], UPanic)
  else
    let total := ((nlen file + chunk_size + two64 - 1) mod two64) / chunk_size in
    if (0 <? total) && (9223372036854775808 <=? chunk_size) then ([init], UPanic)
    else
      let '(cs, ok) := send_chunks rd reply chunk_size (N.to_nat total) 0 file in
      if negb ok then (init :: cs, UErr)
      else (init :: cs ++ [CFinalize], if finalized (reply CFinalize) then UOk else UErr).

(** ** Permissions *)

(** [parse_permission_from_str], cmdline/src/calls/permissions.rs:6-25. *)
Definition parse_permission (input : string) : option permission :=
  let s := lowercase input in
  let is x := bool_decide (s = x) in
  if is "minting"%string then Some PMinting
  else if is "manageauthorities"%string || is "manage_authorities"%string || is "manage-authorities"%string then Some PManageAuthorities
  else if is "updatemetadata"%string || is "update_metadata"%string || is "update-metadata"%string then Some PUpdateMetadata
  else if is "updatecollectionmetadata"%string || is "update_collection_metadata"%string || is "update-collection-metadata"%string
       then Some PUpdateCollectionMetadata
  else if is "readuploads"%string || is "read_uploads"%string || is "read-uploads"%string then Some PReadUploads
  else if is "updateuploads"%string || is "update_uploads"%string || is "update-uploads"%string then Some PUpdateUploads
  else None.

(** Labels printed by [permissions list], cmdline/src/commands.rs:256-263. *)
Definition permission_label (p : permission) : string :=
  match p with
  | PMinting => "minting"
  | PManageAuthorities => "manage_authorities"
  | PUpdateMetadata => "update_metadata"
  | PUpdateCollectionMetadata => "update_collection_metadata"
  | PReadUploads => "read_uploads"
  | PUpdateUploads => "update_uploads"
  end.

(** ** Metadata arguments of [mint] *)

(** The colon, the separator of cmdline/src/commands.rs:84,187. *)
Definition colon : Ascii.ascii := Ascii.ascii_of_N 58.

(** [entry.split(':').collect()], cmdline/src/commands.rs:187. *)
Fixpoint split_colon (s : string) : list string :=
  match s with
  | EmptyString => [EmptyString]
  | String c r =>
      if Ascii.eqb c colon then EmptyString :: split_colon r
      else match split_colon r with h :: t => String c h :: t | [] => [String c EmptyString] end
  end.

(** Value of a decimal digit, [char::to_digit(10)]; standard library. *)
Definition digit (c : Ascii.ascii) : option N :=
  let n := Ascii.N_of_ascii c in if (48 <=? n) && (n <=? 57) then Some (n - 48) else None.

(** Digits to a number, most significant first; standard library. *)
Fixpoint digits (s : string) (acc : N) : option N :=
  match s with
  | EmptyString => Some acc
  | String c r => match digit c with Some d => digits r (10 * acc + d) | None => None end
  end.

(** One or more digits; standard library. *)
Definition number (s : string) : option N := match s with EmptyString => None | _ => digits s 0 end.

(** [str::parse::<u64>]: optional plus sign, digits, range check (standard library); cmdline/src/commands.rs:191. *)
Definition parse_u64 (s : string) : option N :=
  let t := match s with String c r => if Ascii.N_of_ascii c =? 43 then r else s | EmptyString => s end in
  match number t with Some n => if n <? two64 then Some n else None | None => None end.

(** [str::parse::<i64>]: optional sign, digits, range check (standard library); cmdline/src/commands.rs:195. *)
Definition parse_i64 (s : string) : option Z :=
  match s with
  | String c r =>
      if Ascii.N_of_ascii c =? 45 then
        match number r with Some n => if n <=? 9223372036854775808 then Some (- Z.of_N n)%Z else None | None => None end
      else
        match number (if Ascii.N_of_ascii c =? 43 then r else s) with
        | Some n => if n <? 9223372036854775808 then Some (Z.of_N n) else None
        | None => None
        end
  | EmptyString => None
  end.

(** Value of an argument, cmdline/src/commands.rs:191-203. *)
Definition arg_value (s : string) : value :=
  match parse_u64 s with
  | Some n => VNat n
  | None => match parse_i64 s with Some z => VInt z | None => VText s end
  end.

(** Metadata from the [-m] arguments: entries without a colon are skipped, parts after the second are dropped.
    cmdline/src/commands.rs:184-208. *)
Definition mint_metadata (entries : list string) : list (string * value) :=
  flat_map (fun e => match split_colon e with k :: v :: _ => [(k, arg_value v)] | _ => [] end) entries.

(** [create_icrc97_metadata_from_url], cmdline/src/metadata.rs:137-142. *)
Definition url_metadata (url : string) : list (string * value) := [("icrc97:metadata"%string, VArray [VText url])].

(** ** Subaccounts of [mint] *)

(** Value of a hexadecimal digit, [hex::decode] (external crate); cmdline/src/commands.rs:166. *)
Definition hex_digit (c : Ascii.ascii) : option N :=
  let n := Ascii.N_of_ascii c in
  if (48 <=? n) && (n <=? 57) then Some (n - 48)
  else if (97 <=? n) && (n <=? 102) then Some (n - 87)
  else if (65 <=? n) && (n <=? 70) then Some (n - 55)
  else None.

(** [hex::decode] (external crate); cmdline/src/commands.rs:166. *)
Fixpoint hex_decode (s : string) : option bytes :=
  match s with
  | EmptyString => Some []
  | String a (String b r) =>
      match hex_digit a, hex_digit b, hex_decode r with Some x, Some y, Some l => Some (16 * x + y :: l) | _, _, _ => None end
  | String _ EmptyString => None
  end.

(** The [--subaccount] argument: exactly 32 bytes, otherwise an error.  cmdline/src/commands.rs:165-175. *)
Definition parse_subaccount (s : string) : option bytes :=
  match hex_decode s with Some b => if nlen b =? 32 then Some b else None | None => None end.

(** The request of the [mint] command without [--interactive]; [None]: the tool stops with an error before any call.
    cmdline/src/commands.rs:153-223, cmdline/src/calls/mint.rs:9-23. *)
Definition cli_mint (owner : string) (subaccount memo icrc97_url : option string) (entries : list string) : option mint_req :=
  match principal_parse owner with
  | None => None
  | Some p =>
      match (match subaccount with Some s => Some <$> parse_subaccount s | None => Some None end) with
      | None => None
      | Some sub =>
          Some (mkMint (mkAcc p sub) (string_bytes <$> memo)
                  (match icrc97_url with Some u => url_metadata u | None => mint_metadata entries end))
      end
  end.

(** ** JSON metadata *)

(** [serde_json::Value]; numbers as an abstract code.  External crate, used in cmdline/src/metadata.rs. *)
Inductive json :=
| JNull | JBool (b : bool) | JNum (n : Z) | JStr (s : string) | JArr (l : list json) | JObj (l : list (string * json)).

(** [Map::get], [contains_key]; external crate, cmdline/src/metadata.rs:17. *)
Fixpoint jget (k : string) (l : list (string * json)) : option json :=
  match l with [] => None | (k', v) :: r => if bool_decide (k = k') then Some v else jget k r end.
(** [Value::is_string]; external crate. *)
Definition is_str (j : json) : bool := match j with JStr _ => true | _ => false end.
(** [if let Some(x) = obj.get(k) { if !x.is_string() { return Err } }], cmdline/src/metadata.rs:17-39. *)
Definition str_field (k : string) (l : list (string * json)) : bool :=
  match jget k l with Some v => is_str v | None => true end.

(** Check of one attribute, cmdline/src/metadata.rs:46-70. *)
Definition valid_attribute (j : json) : bool :=
  match j with
  | JObj l =>
      match jget "trait_type" l with
      | None => false
      | Some t => is_str t && (match jget "value" l with Some _ => true | None => false end) && str_field "display_type" l
      end
  | _ => false
  end.

(** [validate_icrc97_metadata], cmdline/src/metadata.rs:10-74 (and the copy in cmdline/src/utils.rs:31-95). *)
Definition validate_metadata (j : json) : bool :=
  match j with
  | JObj l =>
      str_field "name" l && str_field "description" l && str_field "image" l && str_field "external_url" l
      && match jget "attributes" l with
         | None => true
         | Some (JArr a) => forallb valid_attribute a
         | Some _ => false
         end
  | _ => false
  end.

(** [obj[k] = v]: insertion in the map; external crate, cmdline/src/metadata.rs:229. *)
Fixpoint jset (k : string) (v : json) (l : list (string * json)) : list (string * json) :=
  match l with [] => [(k, v)] | (k', v') :: r => if bool_decide (k = k') then (k, v) :: r else (k', v') :: jset k v r end.
(** Insertion of an optional text, cmdline/src/metadata.rs:228-234. *)
Definition jset_opt (k : string) (v : option string) (l : list (string * json)) : list (string * json) :=
  match v with Some x => jset k (JStr x) l | None => l end.

(** Result of [str::parse::<f64>]: finite (as a code) or infinite/NaN; standard library. *)
Inductive float := Finite (n : Z) | NonFinite.
(** [json!(num)]: infinite and NaN floats become [null]; external crate. *)
Definition json_float (f : float) : json := match f with Finite n => JNum n | NonFinite => JNull end.
(** Attribute given on the command line: text, value, display type; [fparse] is [str::parse::<f64>].
    cmdline/src/commands.rs:82-95. *)
Definition attribute_arg (fparse : string -> option float) (s : string) : option (string * json * option string) :=
  match split_colon s with
  | t :: v :: r =>
      Some (t, match fparse v with Some f => json_float f | None => JStr v end,
            match r with d :: _ => Some d | [] => None end)
  | _ => None
  end.
(** Loop over the attribute arguments, cmdline/src/commands.rs:79-98. *)
Definition attribute_args (fparse : string -> option float) (l : list string) : list (string * json * option string) :=
  flat_map (fun s => match attribute_arg fparse s with Some a => [a] | None => [] end) l.

(** One attribute of the created metadata, cmdline/src/metadata.rs:239-248. *)
Definition attribute_json (a : string * json * option string) : json :=
  JObj (jset_opt "display_type" (snd a) [("trait_type"%string, JStr (fst (fst a))); ("value"%string, snd (fst a))]).

(** [create_icrc97_metadata], cmdline/src/metadata.rs:216-254. *)
Definition create_metadata (name description : string) (image external : option string) (attrs : list (string * json * option string)) : json :=
  let m0 := [("name"%string, JStr name); ("description"%string, JStr description)] in
  let m1 := jset_opt "external_url" external (jset_opt "image" image m0) in
  JObj (match attrs with [] => m1 | _ => jset "attributes" (JArr (map attribute_json attrs)) m1 end).
