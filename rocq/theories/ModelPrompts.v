(** The interactive part of the command-line tool and its commands as clients of the canister:
    cmdline/src/prompts.rs, cmdline/src/metadata.rs, cmdline/src/commands.rs.  The copies of these functions in
    cmdline/src/utils.rs:97-346 are not called by any command. *)
From Verif Require Import Base ModelPrincipal ModelState ModelManagement ModelQueries ModelStep ModelCodec ModelCli.

(** ** Reading lines *)

(** [char::is_whitespace] on ASCII (standard library); other white space is left alone.  cmdline/src/prompts.rs:8. *)
Definition is_space (c : Ascii.ascii) : bool := let n := Ascii.N_of_ascii c in (n =? 32) || ((9 <=? n) && (n <=? 13)).

(** [str::trim], the start; cmdline/src/prompts.rs:8. *)
Fixpoint trim_start (s : string) : string :=
  match s with EmptyString => EmptyString | String c r => if is_space c then trim_start r else s end.
(** [str::trim], the end; cmdline/src/prompts.rs:8. *)
Fixpoint trim_end (s : string) : string :=
  match s with
  | EmptyString => EmptyString
  | String c r => match trim_end r with EmptyString => if is_space c then EmptyString else String c EmptyString | t => String c t end
  end.
(** [str::trim]; cmdline/src/prompts.rs:8. *)
Definition trim (s : string) : string := trim_end (trim_start s).

(** What becomes of a dialogue whose input is a list of lines: it ends with a result and the lines not read, it ends with an
    error, or it repeats a question forever (at the end of the input [read_line] answers an empty text again and again).
    cmdline/src/prompts.rs:3-30. *)
Inductive session (A : Type) := Ended (a : A) (rest : list string) | Aborted | Forever.
Arguments Ended {A} _ _.
Arguments Aborted {A}.
Arguments Forever {A}.

(** [prompt_input], cmdline/src/prompts.rs:3-9; lines are valid UTF-8. *)
Definition prompt_input (l : list string) : string * list string :=
  match l with [] => (EmptyString, []) | x :: r => (trim x, r) end.

(** [prompt_optional], cmdline/src/prompts.rs:11-18. *)
Definition prompt_optional (l : list string) : option string * list string :=
  let '(x, r) := prompt_input l in (if bool_decide (x = EmptyString) then None else Some x, r).

(** [prompt_bool], cmdline/src/prompts.rs:20-29. *)
Fixpoint prompt_bool (l : list string) : session bool :=
  match l with
  | [] => Forever
  | x :: r =>
      let t := lowercase (trim x) in
      if bool_decide (t = "y"%string) || bool_decide (t = "yes"%string) then Ended true r
      else if bool_decide (t = "n"%string) || bool_decide (t = "no"%string) then Ended false r
      else prompt_bool r
  end.

(** [prompt_display_type] for numbers, cmdline/src/prompts.rs:32-50; an empty line, hence the end of the input, means none. *)
Fixpoint display_number (l : list string) : option string * list string :=
  match l with
  | [] => (None, [])
  | x :: r =>
      let t := trim x in
      if bool_decide (t = "1"%string) then (Some "number"%string, r)
      else if bool_decide (t = "2"%string) then (Some "boost_number"%string, r)
      else if bool_decide (t = "3"%string) then (Some "boost_percentage"%string, r)
      else if bool_decide (t = "4"%string) then (Some "date"%string, r)
      else if bool_decide (t = "5"%string) || bool_decide (t = ""%string) then (None, r)
      else display_number r
  end.

(** [prompt_display_type] for texts, cmdline/src/prompts.rs:51-71. *)
Fixpoint display_text (l : list string) : option string * list string :=
  match l with
  | [] => (None, [])
  | x :: r =>
      let t := trim x in
      if bool_decide (t = "1"%string) || bool_decide (t = ""%string) then (None, r)
      else if bool_decide (t = "2"%string) then prompt_optional r
      else display_text r
  end.

(** ** Base64: [BASE64.decode], external crate base64, engine STANDARD (canonical padding, no stray bits);
    cmdline/src/metadata.rs:113-116 *)

(** Value of a base64 digit; external crate, cmdline/src/metadata.rs:114. *)
Definition b64_digit (c : Ascii.ascii) : option N :=
  let n := Ascii.N_of_ascii c in
  if (65 <=? n) && (n <=? 90) then Some (n - 65)
  else if (97 <=? n) && (n <=? 122) then Some (n - 71)
  else if (48 <=? n) && (n <=? 57) then Some (n + 4)
  else if n =? 43 then Some 62
  else if n =? 47 then Some 63
  else None.
(** The padding character; external crate, cmdline/src/metadata.rs:114. *)
Definition b64_pad (c : Ascii.ascii) : bool := Ascii.N_of_ascii c =? 61.

(** [BASE64.decode]; external crate, cmdline/src/metadata.rs:114. *)
Fixpoint b64_decode (s : string) : option bytes :=
  match s with
  | EmptyString => Some []
  | String a (String b (String c (String d r))) =>
      match b64_digit a, b64_digit b with
      | Some x, Some y =>
          if b64_pad c then
            if b64_pad d && bool_decide (r = EmptyString) && (y mod 16 =? 0) then Some [4 * x + y / 16] else None
          else
          match b64_digit c with
          | None => None
          | Some z =>
              if b64_pad d then
                if bool_decide (r = EmptyString) && (z mod 4 =? 0) then Some [4 * x + y / 16; 16 * (y mod 16) + z / 4] else None
              else
              match b64_digit d, b64_decode r with
              | Some w, Some l => Some (4 * x + y / 16 :: 16 * (y mod 16) + z / 4 :: 64 * (z mod 4) + w :: l)
              | _, _ => None
              end
          end
      | _, _ => None
      end
  | _ => None
  end.

(** ** Metadata of [mint --interactive] *)

(** Value of an entry by the chosen type, cmdline/src/metadata.rs:94-124; [None]: the text is refused. *)
Definition entry_value (choice text : string) : option value :=
  if bool_decide (choice = "1"%string) then Some (VText text)
  else if bool_decide (choice = "2"%string) then VNat <$> parse_u64 text
  else if bool_decide (choice = "3"%string) then VInt <$> parse_i64 text
  else if bool_decide (choice = "4"%string) then VBlob <$> b64_decode text
  else Some (VText text).

(** Loop of [create_metadata_interactive_hashmap], cmdline/src/metadata.rs:80-132.  [n] bounds the rounds; every round but
    the last reads a line, so one more than there are lines is enough ([entries_fuel] in PropertiesPrompts.v). *)
Fixpoint entries_loop (n : nat) (l : list string) (acc : list (string * value)) : session (list (string * value)) :=
  match n with
  | O => Forever
  | S n' =>
      let '(key, l1) := prompt_input l in
      if bool_decide (key = EmptyString) then Ended acc l1
      else
        let '(choice, l2) := prompt_input l1 in
        let '(text, l3) := prompt_input l2 in
        match entry_value choice text with
        | None => Aborted
        | Some v =>
            match prompt_bool l3 with
            | Ended true l4 => entries_loop n' l4 (acc ++ [(key, v)])
            | Ended false l4 => Ended (acc ++ [(key, v)]) l4
            | Aborted => Aborted
            | Forever => Forever
            end
        end
  end.
(** [create_metadata_interactive_hashmap], cmdline/src/metadata.rs:76-135. *)
Definition interactive_entries (l : list string) : session (list (string * value)) := entries_loop (S (length l)) l [].

(** ** JSON metadata of [create-metadata --interactive] *)

(** Loop over the attributes, cmdline/src/metadata.rs:177-209; [n] as in [entries_loop]. *)
Fixpoint attributes_loop (fparse : string -> option float) (n : nat) (l : list string) (acc : list (string * json * option string))
  : session (list (string * json * option string)) :=
  match n with
  | O => Forever
  | S n' =>
      let '(trait, l1) := prompt_input l in
      if bool_decide (trait = EmptyString) then Ended acc l1
      else
        let '(text, l2) := prompt_input l1 in
        let '(v, d) := match fparse text with
                       | Some f => (json_float f, display_number l2)
                       | None => (JStr text, display_text l2)
                       end in
        let acc' := acc ++ [(trait, v, fst d)] in
        match prompt_bool (snd d) with
        | Ended true l4 => attributes_loop fparse n' l4 acc'
        | Ended false l4 => Ended acc' l4
        | Aborted => Aborted
        | Forever => Forever
        end
  end.

(** [create_metadata_interactive], cmdline/src/metadata.rs:144-214; the document is put together as in
    [create_icrc97_metadata] (157-168, 188-213). *)
Definition interactive_json (fparse : string -> option float) (l : list string) : session json :=
  let '(name, l1) := prompt_input l in
  if bool_decide (name = EmptyString) then Aborted
  else
    let '(description, l2) := prompt_input l1 in
    if bool_decide (description = EmptyString) then Aborted
    else
      let '(image, l3) := prompt_optional l2 in
      let '(external, l4) := prompt_optional l3 in
      match prompt_bool l4 with
      | Ended true l5 =>
          match attributes_loop fparse (S (length l5)) l5 [] with
          | Ended attrs r => Ended (create_metadata name description image external attrs) r
          | Aborted => Aborted
          | Forever => Forever
          end
      | Ended false l5 => Ended (create_metadata name description image external []) l5
      | Aborted => Aborted
      | Forever => Forever
      end.

(** Arguments of [create-metadata], cmdline/src/cli.rs:36-50. *)
Record create_args := mkCreate {
  ca_interactive : bool; ca_name : option string; ca_description : option string; ca_image : option string;
  ca_external : option string; ca_attributes : list string }.

(** [handle_create_metadata] up to writing the file: the document written, cmdline/src/commands.rs:60-114. *)
Definition create_command (fparse : string -> option float) (a : create_args) (l : list string) : session json :=
  let d :=
    match ca_interactive a, ca_name a, ca_description a with
    | true, _, _ | _, None, None => interactive_json fparse l
    | false, Some n, Some d => Ended (create_metadata n d (ca_image a) (ca_external a) (attribute_args fparse (ca_attributes a))) l
    | false, _, _ => Aborted
    end in
  match d with Ended j r => if validate_metadata j then Ended j r else Aborted | x => x end.

(** ** The [mint] command *)

(** Arguments of [mint], cmdline/src/cli.rs:61-79. *)
Record mint_args := mkMintArgs {
  ma_owner : string; ma_name : string; ma_memo : option string; ma_sub : option string; ma_url : option string;
  ma_interactive : bool; ma_entries : list string }.

(** [handle_mint] up to the call: the request sent, cmdline/src/commands.rs:152-217. *)
Definition mint_command (a : mint_args) (l : list string) : session mint_req :=
  if ma_interactive a && bool_decide (ma_url a = None) then
    match cli_mint (ma_owner a) (ma_sub a) (ma_memo a) None [] with
    | None => Aborted
    | Some r =>
        match interactive_entries l with
        | Ended m rest => Ended (mkMint (mr_owner r) (mr_memo r) m) rest
        | Aborted => Aborted
        | Forever => Forever
        end
    end
  else
    match cli_mint (ma_owner a) (ma_sub a) (ma_memo a) (ma_url a) (ma_entries a) with
    | None => Aborted
    | Some r => Ended r l
    end.

(** What [mint] prints: the number it was answered, or nothing (an error); cmdline/src/calls/mint.rs:24-35,
    cmdline/src/commands.rs:221. *)
Definition minted_id (a : answer) : option N := match a with ANat n => Some n | _ => None end.

(** The whole [mint] command at the canister, cmdline/src/commands.rs:147-223: the state after it and the id printed. *)
Definition run_mint (e : env) (a : mint_args) (l : list string) (s : state) : state * option N :=
  match mint_command a l with
  | Ended r _ => let '(s', ans) := step e (OMint [r]) s in (s', minted_id ans)
  | _ => (s, None)
  end.

(** ** The [permissions] commands *)

(** The four subcommands with their texts, cmdline/src/cli.rs:81-106. *)
Inductive perm_command :=
| PcGrant (principal permission : string)
| PcRevoke (principal permission : string)
| PcList (principal : string)
| PcHas (principal permission : string).

(** What is printed: success, the labels, a truth value, or an error; cmdline/src/commands.rs:225-281. *)
Inductive perm_output := PoDone | PoLabels (l : list string) | PoBool (b : bool) | PoError.

(** Calls of the update methods, whose answers are decoded; cmdline/src/calls/permissions.rs:27-63. *)
Definition perm_reply (a : answer) : perm_output := match a with AOk => PoDone | _ => PoError end.

(** [handle_permissions] at the canister, cmdline/src/commands.rs:225-281, cmdline/src/calls/permissions.rs:27-101.  For
    [list] an empty list is printed as "No permissions", here the empty list of labels. *)
Definition run_permissions (e : env) (c : perm_command) (s : state) : state * perm_output :=
  match c with
  | PcGrant t p =>
      match principal_parse t, parse_permission p with
      | Some who, Some perm => let '(s', a) := step e (OGrant who perm) s in (s', perm_reply a)
      | _, _ => (s, PoError)
      end
  | PcRevoke t p =>
      match principal_parse t, parse_permission p with
      | Some who, Some perm => let '(s', a) := step e (ORevokePerm who perm) s in (s', perm_reply a)
      | _, _ => (s, PoError)
      end
  | PcList t =>
      match principal_parse t with
      | Some who =>
          (s, match get_user_permissions s (e_caller e) who with
              | Some (Some l) => PoLabels (map permission_label l)
              | _ => PoError
              end)
      | None => (s, PoError)
      end
  | PcHas t p =>
      match principal_parse t, parse_permission p with
      | Some who, Some perm => (s, match query_has_permission s (e_caller e) who perm with Some b => PoBool b | None => PoError end)
      | _, _ => (s, PoError)
      end
  end.
