(** Basic data of the NFT canister: principals, accounts, values, machine arithmetic, results. *)
From stdpp Require Export gmap list strings sorting.
From Coq Require Export NArith ZArith Lia.
Global Open Scope N_scope.

(** Byte strings ([Vec<u8>], [ByteBuf], [Principal]); a byte is an [N] below 256.
    Models the byte vectors used throughout, e.g. src/core_nft/src/types/icrc7.rs:17-24. *)
Definition bytes := list N.

(** [candid::Principal], as its raw bytes; used as map key in
    src/core_nft/src/types/permissions.rs:17 and src/core_nft/src/state.rs:33. *)
Definition principal := bytes.

(** [Principal::anonymous()] (the single byte 4), used in src/core_nft/src/updates/icrc7.rs:32,144
    and src/core_nft/src/updates/icrc37.rs:114,267,703. *)
Definition anonymous : principal := [4].

(** [icrc_ledger_types::icrc1::account::Account] {owner; subaccount}, as used in
    src/core_nft/src/types/nft.rs:13 and src/core_nft/src/updates/icrc37.rs:92-101. *)
Record account := mkAcc { acc_owner : principal; acc_sub : option bytes }.

(** The default subaccount, 32 zero bytes ([DEFAULT_SUBACCOUNT] of icrc_ledger_types, external). *)
Definition default_sub : bytes := repeat 0 32%nat.

(** [Account::effective_subaccount] of icrc_ledger_types (external crate). *)
Definition eff_sub (a : account) : bytes :=
  match acc_sub a with Some b => b | None => default_sub end.

(** Key under which an account is compared, hashed and ordered: [PartialEq], [Hash] and [Ord] of
    icrc_ledger_types' [Account] use the owner and the effective subaccount.  Every [==] on accounts and
    every map keyed by [Account] or [WrappedAccount] goes through it
    (src/core_nft/src/state.rs:81, src/core_nft/src/types/icrc37.rs:42-51). *)
Definition acckey := (principal * bytes)%type.
(** See [acckey]; src/core_nft/src/types/wrapped_types.rs:54-58 (derived comparison). *)
Definition akey (a : account) : acckey := (acc_owner a, eff_sub a).

(** [==] on [Account]; e.g. src/core_nft/src/updates/icrc7.rs:33, src/core_nft/src/updates/icrc37.rs:109. *)
Definition acc_eqb (a b : account) : bool := bool_decide (akey a = akey b).

(** [ICRC3Value] / [CustomValue] (src/core_nft/src/types/value_custom.rs:11-23).  A map is a [BTreeMap], here an
    association list. *)
Inductive value :=
| VBlob (b : bytes)
| VText (s : string)
| VNat (n : N)
| VInt (z : Z)
| VArray (l : list value)
| VMap (l : list (string * value)).

(** 2^64 and 2^32: sizes of [u64] and of the wasm32 [usize]. *)
Definition two64 : N := 18446744073709551616.
(** See [two64]; [usize::try_from] in src/core_nft/src/updates/icrc7.rs:133, src/core_nft/src/utils.rs:7. *)
Definition two32 : N := 4294967296.

(** [u64::try_from(BigUint)]: src/core_nft/src/updates/icrc7.rs:50,60. *)
Definition u64_try (n : N) : option N := if n <? two64 then Some n else None.
(** [usize::try_from(BigUint)] on wasm32: src/core_nft/src/updates/icrc7.rs:133. *)
Definition usize_try (n : N) : option N := if n <? two32 then Some n else None.
(** [u64] addition in the release profile (wraps): src/core_nft/src/updates/icrc7.rs:53,63. *)
Definition add64 (a b : N) : N := (a + b) mod two64.
(** [u64] subtraction in the release profile (wraps), for operands below 2^64: src/core_nft/src/guards.rs:62. *)
Definition sub64 (a b : N) : N := (a + two64 - b) mod two64.
(** [u64::saturating_sub]: src/core_nft/src/updates/icrc7.rs:63, src/core_nft/src/guards.rs:57. *)
Definition sat_sub (a b : N) : N := a - b.

(** Length of a vector as a number. *)
Definition nlen {A} (l : list A) : N := N.of_nat (length l).

(** [iter().take(n)]: src/core_nft/src/updates/icrc7.rs:155. *)
Definition take_n {A} (n : N) (l : list A) : list A := firstn (N.to_nat (N.min n (nlen l))) l.
(** [iter().skip(n)]: src/core_nft/src/queries/icrc7.rs:301. *)
Definition skip_n {A} (n : N) (l : list A) : list A := skipn (N.to_nat (N.min n (nlen l))) l.

(** All error answers of the update calls, one constructor per Rust variant.
    src/core_nft/src/types/icrc7.rs:50-60 (TransferError), src/core_nft/src/types/icrc37.rs:74-208,
    src/core_nft/src/types/management.rs:26-247.  Messages that embed numbers are kept as the constant prefix. *)
Inductive err :=
| ENonExistingTokenId
| EInvalidRecipient
| EUnauthorized
| EInvalidSpender
| EApprovalDoesNotExist
| ETooOld
| ECreatedInFuture (ledger_time : N)
| EDuplicate (duplicate_of : N)
| EGeneric (code : N) (msg : string)
| EConcurrentManagementCall
| EExceedMaxAllowedSupplyCap
| EInvalidMemo
| EStorageCanisterError (msg : string)
| ETokenDoesNotExist
| ENotTokenOwner
| EFileAlreadyExists
| EUploadNotInitialized
| EUploadAlreadyFinalized
| EUploadNotStarted
| EIncompleteUpload.

(** [Result<A, err>] of the Rust code. *)
Inductive res (A : Type) := Ok (a : A) | Err (e : err).
Arguments Ok {A} _.
Arguments Err {A} _.

(** Lower-casing of ASCII texts ([str::to_lowercase] restricted to ASCII; other letters are left alone):
    src/core_nft/src/updates/icrc37.rs:795, src/index_icrc7/src/blocks.rs:55, cmdline/src/calls/permissions.rs:7. *)
Definition lower_ascii (c : Ascii.ascii) : Ascii.ascii :=
  let n := Ascii.N_of_ascii c in
  if (65 <=? n) && (n <=? 90) then Ascii.ascii_of_N (n + 32) else c.
(** See [lower_ascii]. *)
Fixpoint lowercase (s : string) : string :=
  match s with
  | EmptyString => EmptyString
  | String c r => String (lower_ascii c) (lowercase r)
  end.

(** [str::contains]: src/core_nft/src/updates/icrc37.rs:795. *)
Fixpoint str_contains (needle hay : string) : bool :=
  if String.prefix needle hay then true
  else match hay with EmptyString => false | String _ r => str_contains needle r end.

Ltac splits := repeat match goal with |- _ /\ _ => split | |- let _ := _ in _ => intro end.
