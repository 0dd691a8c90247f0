(** The command-line tool as a whole: start-up and choice of the command, cmdline/src/main.rs. *)
From Verif Require Import Base ModelPrincipal ModelState ModelManagement ModelStep ModelCodec ModelCli ModelPrompts ModelWorkflow.

(** Subcommands with their arguments, cmdline/src/cli.rs:22-106.  [CmdOther]: none was given, cmdline/src/main.rs:55-57;
    [CmdPermissions None]: none of the four of [permissions], cmdline/src/commands.rs:276-278. *)
Inductive command :=
| CmdUploadFile (file destination : string) (chunk_size : N)
| CmdValidate (file : string)
| CmdCreate (output : string) (a : create_args)
| CmdUploadMetadata (file : string) (chunk_size : N)
| CmdMint (a : mint_args)
| CmdPermissions (c : option perm_command)
| CmdOther.

(** A call of the tool; parsing of the words by the external crate clap is left out.  cmdline/src/cli.rs:8-21. *)
Record invocation := mkInvocation { in_network : string; in_identity : string; in_canister : string; in_command : command }.

(** What the tool sends: a request for the root key of the network, or a call of the canister.
    cmdline/src/utils.rs:24-26, cmdline/src/calls/mint.rs:24-29, permissions.rs, uploads.rs. *)
Inductive request :=
| QRootKey (url : string)
| QUpload (path : string) (c : cli_call)
| QMint (r : mint_req)
| QGrant (who : principal) (p : permission)
| QRevoke (who : principal) (p : permission)
| QList (who : principal)
| QHas (who : principal) (p : permission).

(** The world outside: is the identity file there and readable, is the network reached when asked for its root key, how upload
    calls end, does another call end well, may a file be written; reading of files; [str::parse::<f64>]; serde_json; SHA-256.
    Operating system, network and external crates; used in cmdline/src/commands.rs and cmdline/src/utils.rs:9-29. *)
Record outside := mkOutside {
  o_identity : string -> bool;
  o_key : string -> bool;
  o_upload : cli_call -> cli_reply;
  o_call : request -> bool;
  o_write : string -> bool;
  o_read : read_oracle;
  o_float : string -> option float;
  o_print : json -> bytes;
  o_parse : bytes -> option json;
  o_digest : bytes -> bytes }.

(** How the tool ends: exit status 0, an error message, a panic, or not at all.  cmdline/src/main.rs:20. *)
Inductive ending := Success | Failure | Panic | Endless.

(** The files of the user; only those the tool can read.  Operating system; read and written in
    cmdline/src/commands.rs:28,44,112,127. *)
Notation disk := (gmap string bytes).

(** URL of the network, cmdline/src/utils.rs:12-16. *)
Definition agent_url (network : string) : string :=
  if bool_decide (network = "local"%string) then "http://127.0.0.1:4943"
  else if bool_decide (network = "ic"%string) then "https://ic0.app"
  else network.

(** [initialize_agent], cmdline/src/utils.rs:9-29: what is sent, and whether it succeeds.  The [expect] on a URL that cannot be
    parsed is left out: clap admits only "local" and "ic", cmdline/src/cli.rs:10. *)
Definition initialize_agent (x : outside) (identity network : string) : list request * bool :=
  if negb (o_identity x identity) then ([], false)
  else if bool_decide (network = "ic"%string) then ([], true)
  else ([QRootKey (agent_url network)], o_key x (agent_url network)).

(** End of an upload, cmdline/src/calls/uploads.rs:52-115. *)
Definition upload_ending (r : cli_result) : ending := match r with UOk => Success | UErr => Failure | UPanic => Panic end.

(** [handle_upload_file], cmdline/src/commands.rs:19-39. *)
Definition handle_upload_file (x : outside) (file destination : string) (chunk : N) (d : disk) : list request * ending :=
  match d !! file with
  | None => ([], Failure)
  | Some b => let '(cs, r) := upload_file (o_read x) (o_upload x) b chunk in (map (QUpload destination) cs, upload_ending r)
  end.

(** [handle_validate_metadata], cmdline/src/commands.rs:41-59. *)
Definition handle_validate_metadata (x : outside) (file : string) (d : disk) : ending :=
  match d !! file with
  | None => Failure
  | Some b => match o_parse x b with Some j => if validate_metadata j then Success else Failure | None => Failure end
  end.

(** [handle_create_metadata], cmdline/src/commands.rs:61-117: the document is printed into the output file. *)
Definition handle_create_metadata (x : outside) (output : string) (a : create_args) (l : list string) (d : disk) : disk * ending :=
  match create_command (o_float x) a l with
  | Ended j _ => if o_write x output then (<[output := o_print x j]> d, Success) else (d, Failure)
  | Aborted => (d, Failure)
  | Forever => (d, Endless)
  end.

(** [handle_upload_metadata], cmdline/src/commands.rs:119-150. *)
Definition handle_upload_metadata (x : outside) (file : string) (chunk : N) (d : disk) : list request * ending :=
  match d !! file with
  | None => ([], Failure)
  | Some b =>
      match upload_document (o_parse x) (o_digest x) (o_read x) (o_upload x) b chunk with
      | None => ([], Failure)
      | Some (p, (cs, r)) => (map (QUpload p) cs, upload_ending r)
      end
  end.

(** A call whose answer is decoded, cmdline/src/calls/mint.rs:24-35, cmdline/src/calls/permissions.rs:27-101. *)
Definition one_call (x : outside) (q : request) : list request * ending := ([q], if o_call x q then Success else Failure).

(** [handle_mint], cmdline/src/commands.rs:153-223. *)
Definition handle_mint (x : outside) (a : mint_args) (l : list string) : list request * ending :=
  match mint_command a l with
  | Ended r _ => one_call x (QMint r)
  | Aborted => ([], Failure)
  | Forever => ([], Endless)
  end.

(** Principal and permission of the permission commands, cmdline/src/commands.rs:233-236. *)
Definition who_what (t p : string) (k : principal -> permission -> list request * ending) : list request * ending :=
  match principal_parse t, parse_permission p with Some who, Some perm => k who perm | _, _ => ([], Failure) end.

(** [handle_permissions], cmdline/src/commands.rs:225-281. *)
Definition handle_permissions (x : outside) (c : option perm_command) : list request * ending :=
  match c with
  | Some (PcGrant t p) => who_what t p (fun who perm => one_call x (QGrant who perm))
  | Some (PcRevoke t p) => who_what t p (fun who perm => one_call x (QRevoke who perm))
  | Some (PcList t) => match principal_parse t with Some who => one_call x (QList who) | None => ([], Failure) end
  | Some (PcHas t p) => who_what t p (fun who perm => one_call x (QHas who perm))
  | None => ([], Success)
  end.

(** The command chosen, cmdline/src/main.rs:30-58: files afterwards, requests, ending.  [l]: the lines typed. *)
Definition run_command (x : outside) (c : command) (l : list string) (d : disk) : disk * (list request * ending) :=
  match c with
  | CmdUploadFile f p n => (d, handle_upload_file x f p n d)
  | CmdValidate f => (d, ([], handle_validate_metadata x f d))
  | CmdCreate o a => let '(d', r) := handle_create_metadata x o a l d in (d', ([], r))
  | CmdUploadMetadata f n => (d, handle_upload_metadata x f n d)
  | CmdMint a => (d, handle_mint x a l)
  | CmdPermissions c => (d, handle_permissions x c)
  | CmdOther => (d, ([], Success))
  end.

(** [main], cmdline/src/main.rs:19-61. *)
Definition tool (x : outside) (i : invocation) (l : list string) (d : disk) : disk * (list request * ending) :=
  match principal_parse (in_canister i) with
  | None => (d, ([], Failure))
  | Some _ =>
      match initialize_agent x (in_identity i) (in_network i) with
      | (q, false) => (d, (q, Failure))
      | (q, true) => let '(d', (q', r)) := run_command x (in_command i) l d in (d', (q ++ q', r))
      end
  end.
