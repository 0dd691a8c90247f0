(** The ledger together with the storage canisters: which requests an upload call sends, what becomes of them, and which
    reply the ledger continues with. *)
From Verif Require Import Base ModelPrincipal ModelState ModelIcrc7 ModelIcrc37 ModelManagement ModelLifecycle
  ModelQueries ModelStep ModelStorage.

(** Requests to a storage canister (crate bity_ic_storage_canister_c2c), src/core_nft/src/types/sub_canister.rs:245,272,299,327.
    Simplification: of the arguments only the path is kept. *)
Inductive srequest := SqInit (path : string) | SqStore (path : string) | SqFinalize (path : string) | SqCancel (path : string).

(** Errors of a storage canister (crate bity_ic_storage_canister_api): the variants
    src/core_nft/src/types/management.rs:135-145,165-178,199-218,238-247 name; [SOther] stands for the others. *)
Inductive serr := SFileExists | SNotInitialized | SAlreadyFinalized | SNotStarted | SIncomplete | SOther (tag : N).

(** What happens to one attempt of a call between canisters (src/core_nft/src/types/sub_canister.rs:245,272,299,327): it is
    executed and the reply arrives, it is not executed, or it is executed and the reply does not arrive.  The text is what
    [format!("{e:?}")] prints (254,281,309,337). *)
Inductive fate := Delivered | NotSent (text : string) | ReplyLost (text : string).

(** What the network and the other canisters do during one upload call: [n_installed] whether the manager has the canister
    as Installed (src/core_nft/src/types/sub_canister.rs:144,237,264,291,319), [n_size] the answer of [get_storage_size]
    (207-219), [n_fates] the attempts of [retry_async] (245,272,299,327; their number is left open), [n_create] the outcome of
    [create_canister] (100-104), [n_text] and [n_etext] the derived Debug texts
    (src/core_nft/src/types/management.rs:142,175,212 and src/core_nft/src/types/sub_canister.rs:122). *)
Record net := mkNet {
  n_installed : principal -> bool;
  n_size : principal -> option N;
  n_fates : principal -> list fate;
  n_create : principal + string;
  n_text : serr -> string;
  n_etext : err -> string
}.

(** [init_upload::from_storage_response], src/core_nft/src/types/management.rs:135-145. *)
Definition init_err (n : net) (x : serr) : err :=
  match x with SFileExists => EFileAlreadyExists | _ => EStorageCanisterError (n_text n x) end.

(** [store_chunk::from_storage_response], src/core_nft/src/types/management.rs:165-178. *)
Definition store_err (n : net) (x : serr) : err :=
  match x with
  | SNotInitialized => EUploadNotInitialized
  | SAlreadyFinalized => EUploadAlreadyFinalized
  | _ => EStorageCanisterError (n_text n x)
  end.

(** [finalize_upload::from_storage_response], src/core_nft/src/types/management.rs:199-218. *)
Definition finalize_err (n : net) (x : serr) : err :=
  match x with
  | SNotStarted => EUploadNotStarted
  | SAlreadyFinalized => EUploadAlreadyFinalized
  | SIncomplete => EIncompleteUpload
  | _ => EStorageCanisterError (n_text n x)
  end.

(** [cancel_upload::from_storage_response], src/core_nft/src/types/management.rs:238-247 (the storage canister has one error
    for this call, so the others do not occur). *)
Definition cancel_err (n : net) (x : serr) : err := EUploadNotInitialized.

(** Text when the canister is not installed, src/core_nft/src/types/sub_canister.rs:240,267,294,322. *)
Definition not_installed_msg : string := "Canister is not installed".

Section Joint.
(** The storage canisters: any machine that answers a request to a canister with success ([None]) or an error. *)
Context {ST : Type} (srv : ST -> principal -> srequest -> ST * option serr).

(** [retry_async] (crate bity_ic_utils): attempts until a reply arrives; the last error otherwise
    (src/core_nft/src/types/sub_canister.rs:245,272,299,327). *)
Fixpoint retry (c : principal) (rq : srequest) (l : list fate) (last : string) (st : ST) : ST * (option serr + string) :=
  match l with
  | [] => (st, inr last)
  | Delivered :: _ => let '(st', x) := srv st c rq in (st', inl x)
  | NotSent t :: r => retry c rq r t st
  | ReplyLost t :: r => retry c rq r t (fst (srv st c rq))
  end.

(** A request of a [StorageCanister]: src/core_nft/src/types/sub_canister.rs:233-258 (init), 260-285 (store), 287-313
    (finalize), 315-341 (cancel); [conv] is the [from_storage_response] of the call. *)
Definition sub_call (n : net) (conv : serr -> err) (c : principal) (rq : srequest) (st : ST) : ST * option err :=
  if n_installed n c then
    let '(st', x) := retry c rq (n_fates n c) "" st in
    (st', match x with
          | inl None => None
          | inl (Some er) => Some (conv er)
          | inr t => Some (EStorageCanisterError t)
          end)
  else (st, Some (EStorageCanisterError not_installed_msg)).

(** Loop over the installed canisters, src/core_nft/src/types/sub_canister.rs:80-98. *)
Fixpoint try_canisters (n : net) (path : string) (size : N) (l : list principal) (st : ST) : ST * option principal :=
  match l with
  | [] => (st, None)
  | c :: r =>
      match n_size n c with
      | Some k =>
          if add128 k size <=? max_storage_size then
            match sub_call n (init_err n) c (SqInit path) st with
            | (st', None) => (st', Some c)
            | (st', Some _) => try_canisters n path size r st'
            end
          else try_canisters n path size r st
      | None => try_canisters n path size r st
      end
  end.

(** [StorageSubCanisterManager::init_upload], src/core_nft/src/types/sub_canister.rs:71-130, the list of canisters being the
    one of the manager (139-151); the size was checked before (75-78). *)
Definition manager_init (n : net) (path : string) (size : N) (l : list principal) (st : ST) : ST * reply :=
  match try_canisters n path size (filter (fun c => n_installed n c = true) l) st with
  | (st', Some c) => (st', RInitOk c)
  | (st', None) =>
      match n_create n with
      | inl c =>
          match sub_call n (init_err n) c (SqInit path) st' with
          | (st'', None) => (st'', RInitOk c)
          | (st'', Some er) => (st'', RInitErr (Some c) (EStorageCanisterError (n_etext n er)))
          end
      | inr t => (st', RInitErr None (EStorageCanisterError t))
      end
  end.

(** Result of a call other than init as the reply the ledger continues with, src/core_nft/src/updates/management.rs:446-452
    (store), 508-515 (finalize), 625-631 (cancel). *)
Definition as_reply (x : option err) : reply := match x with None => ROk | Some er => RErr er end.

(** What a waiting upload call has done at the storage canisters and the reply it gets: src/core_nft/src/updates/management.rs:385
    (init), 446 (store), 508 (finalize), 625 (cancel). [fs] are the upload records. *)
Definition exec (n : net) (size : N) (p : pending) (fs : gmap string upload) (st : ST) : ST * reply :=
  match p with
  | PInit _ path snap => manager_init n path size snap st
  | PStore _ key _ c _ => let '(st', x) := sub_call n (store_err n) c (SqStore key) st in (st', as_reply x)
  | PFinalize _ key _ c _ => let '(st', x) := sub_call n (finalize_err n) c (SqFinalize key) st in (st', as_reply x)
  | PCancel _ key =>
      match fs !! key with
      | Some u => let '(st', x) := sub_call n (cancel_err n) (u_canister u) (SqCancel key) st in (st', as_reply x)
      | None => (st, RTrap)
      end
  end.

(** Ledger, storage canisters, and the replies on their way to waiting calls (src/core_nft/src/updates/management.rs:385,446,508,625). *)
Record joint := mkJ { j_ledger : state; j_store : ST; j_done : gmap N reply }.

(** Events: a message to the ledger; the requests of a waiting call being carried out; the reply arriving; the continuation
    trapping (src/core_nft/src/updates/management.rs:385-406,446-465,508-550,625-637); one cancellation by the garbage collector,
    [u] being the record in the copy it made (src/core_nft/src/jobs/upload_garbage_collector.rs:21-44). *)
Inductive jop :=
| JMsg (e : env) (o : op)
| JExec (id size : N) (n : net)
| JReply (e : env) (id : N)
| JTrap (e : env) (id : N)
| JGc (now : N) (path : string) (u : upload) (f : fate).

(** One event, with the answer of the ledger if it gives one: src/core_nft/src/updates/management.rs:373-637 and
    src/core_nft/src/jobs/upload_garbage_collector.rs:21-44.  Simplification: an upgrade drops the waiting calls whether or
    not their requests were carried out, and the copy of the garbage collector may be any record. *)
Definition jstep (x : jop) (j : joint) : joint * option answer :=
  let '(mkJ s st d) := j in
  match x with
  | JMsg e o =>
      match o with
      | OReply _ _ => (j, None)
      | _ => let '(s', a) := step e o s in (mkJ s' st (match o with OUpgrade => ∅ | _ => d end), Some a)
      end
  | JExec id size n =>
      match pend s !! id, d !! id with
      | Some p, None => let '(st', r) := exec n size p (files s) st in (mkJ s st' (<[id := r]> d), None)
      | _, _ => (j, None)
      end
  | JReply e id =>
      match d !! id with
      | Some r => let '(s', a) := step e (OReply id r) s in (mkJ s' st (delete id d), Some a)
      | None => (j, None)
      end
  | JTrap e id => let '(s', a) := step e (OReply id RTrap) s in (mkJ s' st (delete id d), Some a)
  | JGc now path u f =>
      if now <? add64 (u_init u) day_in_ms then
        match f with
        | NotSent _ => (j, None)
        | _ => (mkJ s (fst (srv st (u_canister u) (SqCancel path))) d, None)
        end
      else (j, None)
  end.

(** Events one after the other (see [jstep]; src/core_nft/src/updates/management.rs:373-637). *)
Fixpoint jrun (l : list jop) (j : joint) : joint :=
  match l with [] => j | x :: r => jrun r (fst (jstep x j)) end.
End Joint.
Arguments mkJ {ST} _ _ _.
Arguments joint : clear implicits.
