(** Choice of the storage canister for an upload. *)
From Verif Require Import Base ModelState ModelManagement.

(** MAX_STORAGE_SIZE, src/core_nft/src/types/sub_canister.rs:16. *)
Definition max_storage_size : N := 536870912000.

(** u128 addition in release mode, src/core_nft/src/types/sub_canister.rs:82. *)
Definition add128 (a b : N) : N := (a + b) mod 340282366920938463463374607431768211456.

(** What the other canisters answer during one call: [w_size c] the reply of [get_storage_size]
    (src/core_nft/src/types/sub_canister.rs:207-219, [None] an error), [w_accept c] the reply of the canister's
    [init_upload] (230-256; [None] accepted, [Some e] the refusal), [w_create] the outcome of [create_canister]
    (crate bity_ic_subcanister_manager: the new canister or the error).  Each canister is asked once, so functions are
    enough. *)
Record world := mkWorld {
  w_size : principal -> option N;
  w_accept : principal -> option string;
  w_create : principal + string
}.

(** Loop over the installed canisters, src/core_nft/src/types/sub_canister.rs:80-98. *)
Fixpoint try_installed (w : world) (size : N) (l : list principal) : option principal :=
  match l with
  | [] => None
  | c :: r =>
      match w_size w c with
      | Some n =>
          if add128 n size <=? max_storage_size then
            match w_accept w c with
            | None => Some c
            | Some _ => try_installed w size r
            end
          else try_installed w size r
      | None => try_installed w size r
      end
  end.

(** [StorageSubCanisterManager::init_upload], src/core_nft/src/types/sub_canister.rs:71-130, with the mapping of errors of
    src/core_nft/src/updates/management.rs:385-391.  [installed] are the canisters in state Installed in the order the
    manager lists them.  The failing downcast (124) cannot happen and is left out. *)
Definition manager_init_upload (w : world) (installed : list principal) (size : N) : reply :=
  if max_file_size <? size then RInitErr None (EStorageCanisterError "File size exceeds the maximum limit of 2GB")
  else
  match try_installed w size installed with
  | Some c => RInitOk c
  | None =>
      match w_create w with
      | inl c => match w_accept w c with None => RInitOk c | Some e => RInitErr (Some c) (EStorageCanisterError e) end
      | inr e => RInitErr None (EStorageCanisterError e)
      end
  end.
