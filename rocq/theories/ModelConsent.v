(** Consent messages (ICRC-21) and the announced block types:
    src/core_nft/src/queries/icrc21.rs, src/core_nft/src/lifecycle/init.rs:122-160. *)
From stdpp Require Export pretty.
From Verif Require Import Base ModelPrincipal ModelState ModelIcrc7 ModelIcrc37.

(** The candid decoder ([Decode!]) at the six argument types, src/core_nft/src/queries/icrc21.rs:47,81,119,158,194,240;
    [None] is a decoding error.  External, so any functions. *)
Record decoders := mkDec {
  d_transfer : bytes -> option (list transfer_arg);
  d_approve : bytes -> option (list approve_arg);
  d_approve_coll : bytes -> option (list approval_info);
  d_revoke : bytes -> option (list revoke_arg);
  d_revoke_coll : bytes -> option (list revoke_coll_arg);
  d_transfer_from : bytes -> option (list transfer_from_arg)
}.

(** [ConsentMessageRequest] (icrc_ledger_types, src/core_nft/src/types/icrc21.rs:5): method, argument bytes, and the
    language and time zone of the user's preferences, which are handed back unread. *)
Record consent_request := mkConsent { cr_method : string; cr_arg : bytes; cr_lang : string; cr_offset : option Z }.

(** Outcome of the query: message with the preferences, refusal ([UnsupportedCanisterCall]) or trap.
    src/core_nft/src/types/icrc21.rs:6. *)
Inductive consent :=
| COk (msg : string) (lang : string) (offset : option Z)
| CErr (description : string)
| CTrap.

(** [create_consent_info], src/core_nft/src/queries/icrc21.rs:27-39. *)
Definition consent_info (r : consent_request) (msg : string) : consent := COk msg (cr_lang r) (cr_offset r).

(** Text for a batch, src/core_nft/src/queries/icrc21.rs:65-72,102-110,178-183,259-264; the [fields] collected before it
    are never used by the code and left out. *)
Definition batch_text (many1 many2 one : string) (n : N) : string :=
  if 1 <? n then many1 +:+ pretty n +:+ many2 else one.

(** [handle_transfer_consent], src/core_nft/src/queries/icrc21.rs:46-78. *)
Definition transfer_consent (d : decoders) (r : consent_request) : consent :=
  match d_transfer d (cr_arg r) with
  | Some l => consent_info r (batch_text "You are about to transfer " " NFTs. Method: icrc7_transfer"
                                "You are about to transfer an NFT. Method: icrc7_transfer" (nlen l))
  | None => CErr "Failed to decode transfer arguments"
  end.

(** [handle_approve_tokens_consent], src/core_nft/src/queries/icrc21.rs:80-116. *)
Definition approve_consent (d : decoders) (r : consent_request) : consent :=
  match d_approve d (cr_arg r) with
  | Some l => consent_info r (batch_text "You are about to approve " " NFTs for transfer. Method: icrc37_approve_tokens"
                                "You are about to approve an NFT for transfer. Method: icrc37_approve_tokens" (nlen l))
  | None => CErr "Failed to decode approve_tokens arguments"
  end.

(** [handle_approve_collection_consent], src/core_nft/src/queries/icrc21.rs:118-155; an empty batch meets the [unwrap] of
    line 147. *)
Definition approve_coll_consent (d : decoders) (r : consent_request) : consent :=
  match d_approve_coll d (cr_arg r) with
  | Some [] => CTrap
  | Some (a :: _) => consent_info r ("You are about to approve " +:+ principal_text (acc_owner (ai_spender a)) +:+
      " to transfer all your nft available in the collection. Method: icrc37_approve_collection")
  | None => CErr "Failed to decode approve_collection arguments"
  end.

(** [handle_revoke_token_approvals_consent], src/core_nft/src/queries/icrc21.rs:157-191. *)
Definition revoke_consent (d : decoders) (r : consent_request) : consent :=
  match d_revoke d (cr_arg r) with
  | Some l => consent_info r (batch_text "You are about to revoke approvals for " " NFTs. Method: icrc37_revoke_token_approvals"
                                "You are about to revoke approval for an NFT. Method: icrc37_revoke_token_approvals" (nlen l))
  | None => CErr "Failed to decode revoke_token_approvals arguments"
  end.

(** [handle_revoke_collection_approvals_consent], src/core_nft/src/queries/icrc21.rs:193-237. *)
Definition revoke_coll_consent (d : decoders) (r : consent_request) : consent :=
  match d_revoke_coll d (cr_arg r) with
  | Some _ => consent_info r "You are about to revoke collection approvals. Method: icrc37_revoke_collection_approvals"
  | None => CErr "Failed to decode revoke_collection_approvals arguments"
  end.

(** [handle_transfer_from_consent], src/core_nft/src/queries/icrc21.rs:239-270. *)
Definition transfer_from_consent (d : decoders) (r : consent_request) : consent :=
  match d_transfer_from d (cr_arg r) with
  | Some l => consent_info r (batch_text "You are about to transfer " " NFTs using approval. Method: icrc37_transfer_from"
                                "You are about to transfer an NFT using approval. Method: icrc37_transfer_from" (nlen l))
  | None => CErr "Failed to decode transfer_from arguments"
  end.

(** [icrc21_canister_call_consent_message] and [handle_unsupported_method],
    src/core_nft/src/queries/icrc21.rs:14-25,272-274. *)
Definition consent_message (d : decoders) (r : consent_request) : consent :=
  if bool_decide (cr_method r = "icrc7_transfer") then transfer_consent d r
  else if bool_decide (cr_method r = "icrc37_approve_tokens") then approve_consent d r
  else if bool_decide (cr_method r = "icrc37_approve_collection") then approve_coll_consent d r
  else if bool_decide (cr_method r = "icrc37_revoke_token_approvals") then revoke_consent d r
  else if bool_decide (cr_method r = "icrc37_revoke_collection_approvals") then revoke_coll_consent d r
  else if bool_decide (cr_method r = "icrc37_transfer_from") then transfer_from_consent d r
  else CErr ("Method '" +:+ cr_method r +:+ "' is not supported").

(** [supported_blocks] given to the log at installation and answered by [icrc3_supported_block_types],
    src/core_nft/src/lifecycle/init.rs:123-159, src/core_nft/src/queries/icrc3.rs:42-47. *)
Definition supported_blocks : list string :=
  ["7mint"; "7burn"; "7xfer"; "7update_token"; "37approve"; "37approve_coll"; "37revoke"; "37revoke_coll"; "37xfer"]%string.
