(** The upload commands of the command-line tool run against the canister: cmdline/src/calls/uploads.rs,
    cmdline/src/commands.rs:19-39,119-150. *)
From Verif Require Import Base ModelPrincipal ModelState ModelManagement ModelStep ModelCodec ModelCli ModelPrompts.

(** The message of a call; path as given on the command line.  The hash and the bytes of a chunk go to the storage canister
    and are not looked at by the collection canister, see [call_data].  cmdline/src/calls/uploads.rs:70-80,93-102,105-112. *)
Definition call_op (path : string) (c : cli_call) : op :=
  match c with
  | CInit size _ => OInitUpload path size
  | CStore _ _ => OStoreChunk path
  | CFinalize => OFinalize path
  end.

(** What goes to the storage canister with a call: the hash announced, or a numbered chunk.
    src/core_nft/src/updates/management.rs:385,446,508; cmdline/src/calls/uploads.rs:70-112. *)
Inductive call_payload := PHash (h : bytes) | PChunk (i : N) (b : bytes) | PNothing.
(** See [call_payload]; [digest] is SHA-256 (external crate).  cmdline/src/calls/uploads.rs:63-66,70-112. *)
Definition call_data (digest : bytes -> bytes) (file : bytes) (c : cli_call) : call_payload :=
  match c with CInit _ _ => PHash (digest file) | CStore i b => PChunk i b | CFinalize => PNothing end.

(** What [call_and_wait] answers: an answer of the method, or a failure (rejected by the guard, trapped).
    ic_agent, external; cmdline/src/calls/uploads.rs:10-49. *)
Definition tool_reply (a : answer) : cli_reply :=
  match a with AOk => ModelCli.ROk | AErr _ => ModelCli.RErr | _ => ModelCli.RFail end.

(** One call of the tool: the messages of others before it arrives, its own message, those of others while it waits, and the
    message of the storage canister's reply.  src/core_nft/src/updates/management.rs:374-551. *)
Record shot := mkShot { sh_before : history; sh_env : env; sh_between : history; sh_reply : env; sh_storage : reply }.

(** The messages, the number and the answer of one call; a call that has to wait gets the number [next_pend].
    src/core_nft/src/updates/management.rs:374-551. *)
Definition exchange (path : string) (c : cli_call) (x : shot) (s : state) : history * option N * answer :=
  let s1 := run (sh_before x) s in
  let r := step (sh_env x) (call_op path c) s1 in
  match snd r with
  | APending =>
      let m := (sh_reply x, OReply (next_pend s1) (sh_storage x)) in
      (sh_before x ++ (sh_env x, call_op path c) :: sh_between x ++ [m], Some (next_pend s1),
       snd (step (fst m) (snd m) (run (sh_between x) (fst r))))
  | a => (sh_before x ++ [(sh_env x, call_op path c)], None, a)
  end.

(** A sequence of calls, each made after the answer to the one before: calls with their numbers and replies, and all messages.
    cmdline/src/calls/uploads.rs:70-112. *)
Fixpoint transcript (path : string) (l : list (cli_call * shot)) (s : state) : list (cli_call * option N * cli_reply) * history :=
  match l with
  | [] => ([], [])
  | (c, x) :: r =>
      let y := exchange path c x s in
      let z := transcript path r (run (fst (fst y)) s) in
      ((c, snd (fst y), tool_reply (snd y)) :: fst z, fst (fst y) ++ snd z)
  end.

(** The URL answered by [finalize_upload] on canister [self]; the printed one is its parsed form, the same for plain
    characters (external crate url).  src/core_nft/src/updates/management.rs:544-550, cmdline/src/calls/uploads.rs:49. *)
Definition answer_url (self : principal) (path : string) : string :=
  "https://" +:+ (principal_text self +:+ (".raw.icp0.io" +:+ norm_path path)).

(** Hexadecimal digit, [format!("{:x}", _)]; standard library, cmdline/src/commands.rs:136. *)
Definition lower_hex (n : N) : Ascii.ascii := Ascii.ascii_of_N (if n <? 10 then 48 + n else 87 + n).
(** [format!("{:x}", hash)], cmdline/src/commands.rs:136. *)
Fixpoint hex_string (b : bytes) : string :=
  match b with [] => "" | x :: r => String (lower_hex (x / 16)) (String (lower_hex (x mod 16)) (hex_string r)) end.
(** Destination of a metadata document, cmdline/src/commands.rs:135-137. *)
Definition document_path (digest : bytes -> bytes) (document : bytes) : string :=
  "/" +:+ (hex_string (digest document) +:+ ".json").

(** [handle_upload_metadata]: the document is read as text and parsed ([parse], serde_json; [None] for bytes that are not UTF-8
    or not JSON), validated and uploaded under its hash.  [None]: an error before any call.  cmdline/src/commands.rs:119-150. *)
Definition upload_document (parse : bytes -> option json) (digest : bytes -> bytes) (rd : read_oracle) (reply : cli_call -> cli_reply)
  (document : bytes) (chunk_size : N) : option (string * (list cli_call * cli_result)) :=
  match parse document with
  | Some j => if validate_metadata j then Some (document_path digest document, upload_file rd reply document chunk_size) else None
  | None => None
  end.
