# Formal model of ORIGYN-SA/nft

Prover: Rocq (Coq 8.16.1) with std++ finite maps. Everything lives in `rocq/theories`.

## Reading guide

| Files | Content |
|---|---|
| `Base.v` | accounts, principals, values, machine arithmetic |
| `Model*.v` | transcription of the Rust functions, definition by definition, with file and line citations; no proofs |
| `Spec*.v` | independent specifications: log replay, entitlement, paging, life cycles |
| `Proofs*.v` | lemmas and invariants |
| `Properties*.v` | the claimed theorems, each with an `Example` showing that a concrete non-trivial case meets its hypotheses, and `Print Assumptions` |
| `Conformance.v` | the repository's integration and unit tests replayed on the model by evaluation: evidence that the model describes the code; no theorem depends on it |

## Modelling decisions

* **Messages.** An update call is one atomic transition `state -> option (state * answer)`. `None` is a trap: the
  IC rolls the message back, so `step` returns the old state. An `Err` answer commits whatever was written before.
  Upload calls that `await` the storage canister are split at the await: the first part leaves a pending
  continuation, a later `resume` transition runs the rest with an arbitrary reply, or traps.
* **Environment.** Caller, time and the arguments are universally quantified per call. The transaction log
  (`bity_ic_icrc3`, not in the repository) is an oracle: for every attempt it answers success with an arbitrary
  index, "duplicate of n", or another error. Theorems quantify over the oracle. On success the model appends
  the transaction to a log list, tagged with the index answered.
* **Accounts** are compared the way `icrc_ledger_types::Account` compares them: principal plus effective
  subaccount (`None` equals 32 zero bytes). Maps are keyed by this pair; the account as written by the caller is kept
  in the stored values. (That crate is not in the repository; this is its documented behaviour.)
* **Numbers.** `Nat` is `N`. `u64` is `N` with explicit wrap `mod 2^64` for `+` and `*` in release mode
  and explicit `saturating_sub`. `usize` is 32 bits (wasm32): `usize::try_from` fails from `2^32`.
* **Principals** are byte lists, anonymous is `[4]`.
* **Hash-map iteration order** is not modelled where the code sorts afterwards; where the code does not sort, the
  theorem says so.

## Which code is modelled where

Paths below `src/core_nft/src` unless they start with another crate. The exact lines are in the comment of each definition.

| Rust | Model |
|---|---|
| `state.rs`, `guards.rs`, `utils.rs`, `types/{permissions,metadata,nft,icrc7,icrc37,wrapped_types,value_custom}.rs` (values and checks) | `ModelState.v` |
| `updates/icrc7.rs` | `ModelIcrc7.v` |
| `updates/icrc37.rs` | `ModelIcrc37.v` |
| `updates/management.rs`, `types/management.rs`, the callers' side of `types/sub_canister.rs` | `ModelManagement.v` (uploads split at their awaits) |
| `types/sub_canister.rs`: choice and creation of a storage canister, with oracles for the answers | `ModelStorage.v` |
| `lifecycle/{init,pre_upgrade,post_upgrade}.rs`, `jobs/upload_garbage_collector.rs` | `ModelLifecycle.v` |
| `queries/{icrc7,icrc37}.rs` and the read calls of `updates/management.rs` | `ModelQueries.v` |
| `queries/icrc21.rs`, `types/icrc21.rs`, `queries/icrc3.rs` (supported block types) | `ModelConsent.v` |
| one message of the canister | `ModelStep.v` |
| `types/http.rs`, `queries/http_request.rs`, their uses in `lifecycle/{init,post_upgrade}.rs` and `finalize_upload` | `ModelHttp.v` |
| arguments of `lifecycle/{init,post_upgrade}.rs` of both canisters, `state.rs` (`Data::new`, `metrics`), `memory.rs` (region numbers) | `ModelInstall.v` |
| `src/index_icrc7/src`: `blocks.rs`, `index.rs`, `cache.rs`, `jobs.rs`, `state.rs`, `wrapped_values.rs`, `update/get_blocks.rs`, `queries/queries.rs`, `lifecycle/{init,pre_upgrade}.rs` | `ModelIndex.v` |
| stored encodings of both canisters: `types/{value_custom,wrapped_types,metadata,icrc37}.rs`, `index_icrc7` `wrapped_values.rs`, `index.rs`, `cache.rs` | `ModelCodec.v` |
| textual principals (external crate `candid`) | `ModelPrincipal.v` |
| `cmdline/src`: `commands.rs`, `metadata.rs`, `utils.rs`, `calls/*`, without prompts | `ModelCli.v` |
| `cmdline/src`: `prompts.rs`, the interactive functions of `metadata.rs`, `handle_create_metadata`, `handle_mint` and `handle_permissions` of `commands.rs` (the copies of the dialogues in `utils.rs` are not used) | `ModelPrompts.v` |
| `cmdline/src`: `handle_upload_file` and `handle_upload_metadata` of `commands.rs`, the calls of `calls/uploads.rs` at the canister; the URL answered by `finalize_upload` | `ModelWorkflow.v` |
| `cmdline/src`: `main.rs`, `initialize_agent` of `utils.rs`, `handle_validate_metadata` and the dispatch to the other handlers; parsing of the command line by clap left out | `ModelMain.v` |
| `types/sub_canister.rs` (requests to storage canisters, repetition, choice of canister), `from_storage_response` of `types/management.rs`, the cancellations of `jobs/upload_garbage_collector.rs`; the storage canister is any machine obeying `storage_laws` (`PropertiesJoint.v`), the number of attempts of `retry_async` is left open | `ModelJoint.v` |

## Properties

Each line: what is modelled and how it is proved.
"refuted" means that the full statement is false of the code; a theorem `*_refuted` gives the witness and a `*_partial`
theorem (where there is one) gives the part that holds.

| Id | Plan |
|---|---|
| C01 | invariant over `run`: all ids ever minted and all keys of the token map are below the next id; induction over histories |
| C02 | per-step lemma over all operations |
| C03 | ghost counters computed from the answers of a history; invariant by induction |
| C04 | per-item lemma for transfer/transfer_from/burn lifted through batches |
| C05 | post-condition of `transfer_from` |
| C06 | refuted: the token approvals survive `icrc7_transfer`; witness history |
| C07 | refuted for mint (partially logged), proved per item for the others |
| C08 | holds by the platform rule; theorem: every trapping call leaves the state; trap conditions characterised |
| C09 | refuted: deduplicated call answers Ok and transfers nothing; proved for a non-duplicate log answer |
| C10 | post-condition of `transfer_from` |
| C11 | replay specification; refinement by induction for histories whose mints never fail half way; refuted in general |
| C12, C13 | post-conditions; C13 refuted for a non-default subaccount |
| C14, C15 | arithmetic of the checks with wrap-around; completeness (C14) under the stated no-overflow condition, with a witness that it is needed |
| C16 | post-condition of transfer and of the request loop of mint |
| C17 | batch = fold of items; length and position by induction |
| C18 | refuted with witness |
| C19 | ghost trace of passed calls per token; invariant by induction over timed histories |
| C20–C23 | per-item lemmas lifted through batches |
| C24 | invariant over histories from `init` |
| C25 | refuted: revoking ignores the from_subaccount given (`subaccount: None` is used) while approving honours it; proved for the default subaccount |
| C26 | refuted with witness |
| C27 | refuted; token-level part proved |
| C28 | sorting and paging lemmas; the listed from_subaccount is refuted |
| C29, C30 | paging specification, induction on the number of pages; refuted for page size 0 |
| C31 | refuted by burn; proved for burn-free histories |
| C32 | lemmas over all batches |
| C33–C35 | per-step lemmas and invariants over histories |
| C36, C37 | transition system with pending continuations; invariant: lock held iff one continuation pending |
| C38 | refuted: the lock set is serialized |
| C39, C40 | record frames; both refuted for `collection_metadata` (ignored), C40 for permitted drift and storage threshold (arguments swapped) |
| C41 | upgrade modelled as serialization of the whole state |
| C42, C44, C45 | refuted with witnesses; partial versions for a succeeding log |
| C43, C46 | per-step lemmas |
| C47–C49 | transition system over uploads, invariants over all schedules; C48 refuted for the redirection of a path that differs only in the leading slash |
| C50 | selection loop with oracle replies |
| C51 | refuted: comparison is inverted |
| C52–C54 | byte-level CBOR encoder and decoder with its UTF-8 check, structural induction; what decoding can yield (PropertiesText.v) |
| C55–C57 | index state and update rounds; C55 for non-overlapping rounds as stated, C56 refuted for overlapping rounds and self-transfers, C57 for unknown block types |
| C58–C60 | query functions; C58 refuted from 2^32 on, C59 for blocks naming an account twice, C60 for descending order |
| C61–C63 | cache model; C63 refuted (the job always panics) |
| C64, C65 | finite type plus string lemmas; C65 by case analysis over logged transactions, three kinds of keys refuted |
| C66 | read oracle with short reads: refuted; proved for full reads |
| C67, C68 | string functions; C68 refuted for values with colons |
| C69 | invariant over histories; refuted for a canister created in a call that fails |
| C70 | case analysis of the consent text; refuted: an empty collection approval traps, a batch of them shows only the first spender |
| C71–C73 | query functions on all states; C71 refuted for page sizes from 2^32 |
| C74 | invariant over the log |
| C75 | reply oracle; refuted for init and store |
| C76–C78 | JSON, attribute and account arguments; C77 refuted for non-finite floats |
| C79, C80 | router state beside the canister state, invariant: router = stored redirections, certified; C79 refuted for the reserved names, C80 for logs, traces and after an upgrade |
| C81, C82 | runs of items are split at the k-th item; the token-revocation limiter counts a batch once, so items are compared under an empty limiter; C82 refuted for approvals and delegated transfers |
| C83-C86 | limiter memory equals the attempts of the trace (as for C19), so an idle limiter lets the call pass; free lock from C37; then the call is computed; C86 refuted |
| C87, C88 | invariant per elementary change: stored approval = approval of the log, or cleaned up and expired by then |
| C89 | every elementary change of a user call needs a permission, a token, an approval or an entry of collection approvals |
| C90, C91 | log of an elementary change is an extension by blocks of that time; induction over the items of a batch |
| C92, C93 | each call computed to its refusals; C92, C93 refuted for icrc7_transfer, mint, icrc37_transfer_from |
| C94-C97, C100 | canister record around the ledger state; induction over messages and upgrades; C95, C96, C97 refuted |
| C98 | HTTP content computed; refuted for the metrics page |
| C99 | distinct numbers |
| C101 | an elementary change that does not mention a token keeps it (also for metadata); induction |
| C102-C104 | effect of a message on permissions, recipients and limiter memory; all three refuted |
| C09, C10, C12, C14–C16, C92 in batches | `PropertiesLift.v`: the single-item theorems carried to every item, in the state the items before it left; final owner = recipient of the last accepted item |
| C105 | the upload calls computed one after another; token calls and refused calls keep the upload tables (elementary changes) |
| C106 | C57's progress of one round, iterated; then every pending call of an index left to itself is answered by a measure on its tasks |
| C107-C118 | `PropertiesStandard.v`: promises of ICRC-7/37 and of the reported settings; each refuted by a short history, with what remains true of all states beside it |
| C119-C124 | `PropertiesPrompts.v`: the dialogues as functions of the list of input lines, against a relational description of what was typed; the commands run against the ledger's `step` |
| C125, C126 | `PropertiesWorkflow.v`: the upload commands call by call against the ledger's `step`, messages of others in between; storage canisters as a specification (they keep what they accept and check the announced hash) |
| C127, C128 | `PropertiesOrder.v`: the item functions on two states that agree on one token (locality), and what they leave alone (frame); commutation, permutations of sequences and of batches follow |
| C129 | `PropertiesMirror.v`: notes taken from calls and answers alone stay in agreement with the ledger, call by call; hence two histories that look alike from outside end alike |
| C130-C132 | `PropertiesJoint.v` on `ModelJoint.v`: ledger and storage canisters as one system of events (messages, requests, replies, traps, collections); an invariant relating the two sides up to the continuation of the waiting call; absorbing states for uploads out of step |
| C133 | `PropertiesStored.v`: invariant over all histories of well-typed messages that every stored entry meets the conditions of the round trips of C52 |
| C134 | `PropertiesBatches.v`: success of a mint characterised exactly; each of its loops is a homomorphism for concatenation |
| C135, C136 | `PropertiesTool.v`: the tool as a function from files, arguments and typed lines to files, requests and ending; validation ignores numbers, so rounding by serde_json does not matter |
| C137 | `PropertiesProvenance.v`: joins the replay of the log by last mention (C11) with what the index lists of a ledger it has read (C65) |
| C138 | `PropertiesKept.v`: as C133, invariant over all histories of the index, also with a dishonest ledger |
| C139, C140 | `PropertiesConsent.v`: texts compared as strings (decimal numbers and principals are injective), calls of the ledger by `micro` |
| C141 | `PropertiesHttp.v`: the lists of headers, for whatever the router answers |
| C142 | `PropertiesRepeat.v`: the announcement refused without effect, then as C125 |
| C143 | `PropertiesTool.v`: by command; refuted for refused announcements and chunks |
| C144 | `PropertiesLimiter.v`: the memory left by a refusal is exactly five ordered times in the window; refuted for the unit named |
| C145 | `PropertiesPaging.v`: `walk` with a different reachable state for every page; a page starts behind the last id seen and reaches it or everything above |
| C146 | `PropertiesPaging.v`: the blocks asked for below a smaller status are an initial part of those below a larger one; partial (a block that names an account twice is read twice) |
| C147 | `PropertiesPaging.v`: refuted for every order of iteration by a cancelled upload; an upload that keeps its position is shown |
| C148 | `PropertiesPowers.v`: each elementary change of `ProofsMicro.v` touches one part; permissions cannot change while a call waits, because the waiting call holds the lock |
| C149 | `PropertiesPrivacy.v`: every function of a token call commutes with exchanging the administrative fields (`swap`); partial: through the lock of a waiting upload a burn shows that the administrators are at work |
| C150 | `PropertiesRetry.v`: every elementary change leaves a cell (owner, approval, permission, ...) or gives it a value fixed by the call; refuted: minting, and batches that move one token twice (the rate limiter can stop the repetition in between) |
| C151 | `PropertiesRename.v`: every function commutes with the renaming of the state (`ren`), by rewriting with the lemmas about renamed maps; storage canisters keep their names, because redirections contain their text |
| C152 | `PropertiesClock.v`: every function commutes with the shift of all times (`late`); the hypothesis `fits` keeps clock + drift + window below 2^64, where the additions of the code would wrap |
| C153 | `PropertiesAlike.v`: `full_state` writes every default subaccount out; every function gives alike results on alike states (`alike` is equality after `full_state`); the log oracle must not tell the two ways apart (`same_log`); `icrc37_is_approved` refuted by an account that approved itself, `_partial` without such approvals |
| C154 | `PropertiesMore.v`: `more s s'` (same ledger, larger table of permissions) is preserved by every message that is not rejected by a permission guard, with the same answer; by induction for histories; the guarded reads |
| C155 | `PropertiesRoom.v`: `roomy s s'` (same ledger, higher limits) is preserved by every message whose answer does not name a limit, with the same answer; refuted beyond 32 bits by a memo limit of 2^32 |
| C156 | `PropertiesMemo.v`: for a replacement `f` of memos and `g` of metadata values, `step` commutes with `re f g` (all contents replaced) and answers the same; by induction for histories; reads differ only in the contents |
| C157 | `PropertiesTwins.v`: from the index invariants, what each of two indexes lists is fixed by the ledger and by how far it has read; refuted with overlapping rounds |
| C158 | `PropertiesForce.v`: relation `same_force now` (all but expired approvals equal) is kept by every step with equal answers; by induction for histories; `cleaned` is an instance; the limit of approvals is the exception (`C158_room_refuted`) |
| C159 | `PropertiesRefused.v`: relation `near now` (all but the rate limiter's memory and expired approvals equal, on top of `same_force` of C158) is kept by every step with equal answers; a refused call leads to a near ledger; by induction histories with refused calls left out |
| C160 | `PropertiesNumber.v`: renumbering `num f` of ledgers and `num_op f` of calls for an injective `f` with an inverse; every call commutes with it (the same plan as C151 for principals); instances `up c` (all numbers moved up) and `exchange a b` |
| C161 | `PropertiesIdle.v`: induction over the history with the invariant "the same holder, and no approval that was not there"; from C20 (only the owner approves) and the theorem about who moves a token |
| C162 | `PropertiesSpend.v`: the number `in_hand` of approvals kept for a spender as a potential; each delegated transfer lowers it by at least one, each approval raises it by at most one |
| C163 | `PropertiesMetaLog.v`: the updates that the blocks tell about a token (`updates_of`) are `chained`; every other elementary change leaves the metadata of minted tokens and adds no such block |
| C164 | `PropertiesRefine.v`: an abstract `machine` and its `rule`s; every elementary change of the model is one rule, or none, under the view `seen_as`; by induction every history is a run of the machine |
| C165 | `PropertiesCover.v`: under the rules of C164 the entry of the spender stays as long as the history leaves it alone; then the outcome of `transfer_from` |
| C166 | `PropertiesRecords.v`: for each kind the number of blocks less the number of records does not shrink, elementary change by elementary change |
| C167 | `PropertiesRenounce.v`: the relation `closed` between two states, reflexive, transitive and kept by every elementary change in states where nobody manages authorities |
| C168 | `PropertiesSum.v`: the lists of the owner index of the accounts asked about, joined, are a permutation of the living tokens and the tokens burned by these accounts (invariant `bal` of C31); false after a burn |
| C169 | `PropertiesCause.v`: entitlement (C04) traced back: an approval in force was given by some earlier message and has been there ever since (`since`), and a transfer_from would have removed it; false because icrc7_transfer keeps approvals |
| C170 | `PropertiesLasting.v`: finalized uploads stay (C48), the router holds the stored redirections (C79), a redirection changes only when a further upload with that path is completed, and a path has two spellings; so it is served for ever and its address changes once at most |
| C171 | `PropertiesPieces.v`: a generic lemma about calls that only go through their items, in a class of states the items do not leave, by induction over the parts |
| C172 | `PropertiesParties.v`: every elementary change of ownership comes with a block naming both accounts (`told`), composed over the message; then C65 end to end; false for subaccounts, which the index does not list |
| C173 | `PropertiesEnd.v`: the elementary changes that remove or replace an approval, composed over the message with the blocks written meanwhile, then over the history; false for collections, where any transfer_from from the account clears all (C26) |
| C174 | `PropertiesPedigree.v`: an inductive chain of grants, by induction on the history from its end with C34; the mints by C148, the circle by induction on the chain |
| C175 | `PropertiesBooks.v`: a log that can be replayed balances, by induction on the log; with C11 and the invariant behind C31; false after a mint that the log cut off and for accounts that burned tokens |
| C176 | `PropertiesCustody.v`: a log that can be replayed and tells each mint once has such papers, by induction on the log; that the mints told are those of the numbers given out is an invariant; false after a mint that the log cut off, without condition from the last mint told on |

## What the code does not do

Refuted claims, each with a `*_refuted` theorem giving a witness:

* C06: `icrc7_transfer` keeps the token's approvals; a spender approved by the old owner can take the token from the new one.
* C07, C11, C42, C45: a mint the log refuses half way leaves blocks in the log and metadata of future ids.
* C09: a transfer that the log calls a duplicate answers `Ok` and moves nothing.
* C13: an account of the anonymous principal with a subaccount can receive through `icrc37_transfer_from`.
* C18: atomic batches are not atomic; the flag only rejects oversized batches.
* C25: a collection approval given from a subaccount cannot be revoked. C26: `icrc37_transfer_from` drops the sender's collection approvals.
* C27: `icrc37_is_approved` and `icrc37_transfer_from` differ in both directions. C28: the listed from_subaccount is the spender's.
* C29, C30: a configured default page size of 0 lists nothing. C31: burning does not lower the balance.
* C38: an upgrade during an upload call locks management for ever.
* C39, C40: `collection_metadata` is ignored; at installation drift and storage threshold are swapped.
* C44: a metadata update the log refuses has already replaced the metadata.
* C48: finalizing "a" takes over the redirection of "/a". C69: a storage canister created in a call that fails is forgotten.
* C51: the upload garbage collector selects fresh (even finalized) uploads and not stale ones.
* C56, C59: a block naming an account twice, or indexed by overlapping rounds, is listed twice. C57: an unknown block type stops the index.
* C58: pages ending at 2^32 or later come out empty or trap. C60: descending unfiltered queries ignore `start`.
* C63: the cache clean-up traps when there is something to remove.
* C65: 37xfer blocks are not found by token id, 37approve_coll blocks not by spender, accounts with a subaccount not at all.
* C66: a short read loses the end of the file; a chunk size that with the file size exceeds 2^64 sends nothing. C68: a value with a colon is cut. C75: `Err` answers of init and store are ignored.
  C77: non-finite attribute values become null.
* C70: the consent query traps on an empty collection approval and shows only the first spender of a batch.
* C71: page sizes from 2^32 repeat the first page.
* C79: an upload named logs, traces or metrics is not served. C80: the certificate of logs and traces is for another path;
  after an upgrade the diagnostic pages are no longer in the certification tree.
* C82: `icrc37_approve_tokens`, `icrc37_approve_collection` and `icrc37_transfer_from` ignore `max_update_batch_size`.
* C86: five refused items of a stranger, in one call, make the owner's calls about the token fail for 60 ms.
* C91, C93: a transfer the log knows already is answered with success by `icrc7_transfer`; `icrc37_transfer_from` answers a general
  error, or "duplicate of 2" whatever the block.
* C92: `icrc7_transfer` by somebody who is not the owner is answered "invalid recipient"; an oversized mint batch "supply cap exceeded".
* C95, C96: grants, revocations and upgrades do not reach the arguments of new storage canisters. C97: the log's duplicate window is
  0 by default, and a configured one is milliseconds there and nanoseconds in the ledger.
* C98: `/metrics` shows the permission table to anybody. C102: the last administrator can remove themself, for ever.
* C103: a mint can make the anonymous principal the owner. C104: refused calls naming fresh ids grow the limiter's memory without bound.
* C107: the `from_subaccount` of `icrc7_transfer` is never read. C108: memos of ICRC-37 calls are not limited.
* C109: an approval that has already expired is accepted (and replaces a valid one). C111: at the limit a listed spender's approval
  cannot be renewed. C116: revoking the approval of somebody who has none succeeds if the token ever had one.
* C110: an owner who approved themself takes the token back after giving it away with `icrc7_transfer`.
* C112: burning leaves approvals (listed and confirmed) and stored metadata.
* C113: an empty `icrc37_revoke_token_approvals` traps; a `max_update_batch_size` of 2^32 makes transfers trap.
* C114: all collection-level calls share one rate-limit window. C115: listing approvals restarts when the previous spender is gone.
* C117: the supply cap can be lowered below the supply. C118: updates accept a transaction window of 2^64 and a logo that is no URL.
* C119: white space at the ends of a typed text is lost. C120: if the input ends at a yes/no question, it is asked for ever.
  C121: a typed value `nan` or `inf` becomes null.
* C123: the mint command's `--name` has to be given and is not used. C124: a permission granted twice is printed twice; for a
  principal without a record an error is printed instead of an empty list.
* C125: refused announcements and chunks go unnoticed, so another uploader's file can be finalized and reported as one's own;
  an empty file can never be uploaded. C126: `upload-metadata` fails for a document that is already there.
* C128: of two delegated transfers that one collection approval allows, only the first to arrive is carried out (a
  consequence of C26).
* C129: a transfer that the log takes for a duplicate is answered like a transfer carried out, and nothing moves. (A mint or
  a metadata update answered with a log error has nevertheless written its metadata; the answer gives this away, see C44 and C45.)
* C130: a lost reply, a trapping continuation, an upgrade while a call waits and the garbage collector each leave ledger and
  storage canister in disagreement; nothing ever compares the two again.
* C131: an unfinished upload the storage canister no longer has (a lost reply to cancel, a collected upload) is in the ledger
  for ever. Storing, finalizing and cancelling are refused by the storage canister, and the ledger keeps its record on every
  refusal, so the path cannot be used again. An upload the storage canister has finalized without the ledger knowing can no
  longer be finalized either; only a cancellation helps, if the storage canister allows it.
* C132: `init_upload` never reports that a storage canister already has the file. It goes on to the next canister and stores a
  second copy.
- C136: `validate-metadata` and `create-metadata` concern only files of the user, but the tool first reads the identity and, on
  `local` (the default), fetches the root key of the replica.  Without a running replica neither does anything
  (`C136_offline_refuted`).  On `ic` they work offline (`C136_offline_partial`).
- C137: the blocks listed under a token do not include transfers by spenders (`37xfer`), so the last transfer listed there may
  name a former owner (`C137_token_listing_refuted`).  Together with the listing of type `37xfer` the owner is found
  (`C137_owner_partial`), and the token's own listing is enough if no spender ever moved it (`C137_unspent_partial`).
- C139: the fields collected for a consent message (token, recipient, memo) are never used; the text shows the number of
  items only, so that giving token 1 to bob and token 2 to carol are shown alike. Exactly what is told: `told`.
- C140: `burn_nft`, which the owner calls, has no consent message; every other call that disposes of a token has one.
- C143: the tool ends with success although chunks of the file were refused.
- C144: the number told by the rate limiter is right in nanoseconds, but the words say milliseconds: sixteen hours instead of 60 ms.
- C146: a block that names an account twice is read twice, possibly on two pages.
- C147: uploads are read by position, so a cancelled upload makes a reader miss another one.
- C149: while an upload call waits for storage an owner cannot burn a token, and so learns of it.
- C150: a repeated mint mints again; nothing marks a mint as the repetition of another.
- C153: `icrc37_is_approved` compares the subaccounts of collection approvals literally
  (src/core_nft/src/queries/icrc37.rs:183-192), so it answers differently for the two ways of writing the default subaccount when an account has
  approved itself for the collection.
- C155: raising a limit to 2^32 or more does not raise it: a memo limit of 2^32 makes a transfer with a memo trap
  (src/core_nft/src/utils.rs:5-28).
* C158: approvals that have expired count towards the limit of approvals per token or collection; one is dropped only when its own
  spender tries it and is refused, or when it is revoked (`C158_room_refuted`, icrc37.rs:122-164,300-332).
* C157: two indexes of one ledger may list different blocks if rounds of reading overlap (`C157_overlap_refuted`, see `C56_overlap`).
* C159: refused items count in the rate limiter (`C159_limiter_refuted`), and a change of metadata refused because the log failed
  stays (`C159_log_refuted`); other refusals leave nothing.
* C160: calls about number 0, which no token has, use up the rate limit of the calls about the collection
  (`C160_zero_refuted`; src/core_nft/src/updates/icrc37.rs:238 and src/core_nft/src/guards.rs:47).
* C161: somebody who makes no call can lose a token received by `icrc7_transfer` to a spender approved by the giver
  (`C161_received_refuted`; see C06).
* C163: the blocks of mints carry no metadata, so ledgers with the same log can show different metadata
  (`C163_minted_refuted`; src/core_nft/src/updates/management.rs:177-189), and an update refused by the log leaves
  changed metadata without a block (`C163_unlogged_refuted`, see C44). Proved: the chain of the updates in the log.
* C165: a principal without any token cannot approve for its collection (`C165_first_refuted`;
  src/core_nft/src/updates/icrc37.rs:275-288), and the first token that a spender moves ends the approval
  (`C165_used_up_refuted`, see C26).
* C166: the metadata of a refused mint are kept without a block (`C166_metadata_refuted`, see C45).
* C168: a burn leaves the token in the owner index, so the balances of all accounts add up to the tokens ever burned by them on
  top of the supply (`C168_sum_refuted`; the exact sum is `C168_sum_partial`).
* C169: the approval may stem from a former holder, who handed the token on by icrc7_transfer (`C169_own_doing_refuted`);
  `C169_own_doing_partial` says what is true of every loss.
* C170: an upload completed under the other spelling of a path (`a` after `/a`) changes the address
  (`C170_same_address_refuted`); proved that this is the only cause and happens once at most.
* C171: icrc37_revoke_token_approvals counts a message once, for its first item, so ten revocations in one message are
  answered and ten messages are not (`C171_revoke_tokens_refuted`).
* C172: the index lists nothing under accounts with a subaccount (`C172_receiver_refuted`).
* C173: one spender's transfer_from ends the running collection approvals of all others (`C173_collection_refuted`).
* C175: the log shows tokens of a mint that failed half-way (`C175_books_refuted`), and the balance counts burned tokens (`C175_reported_refuted`).
* C176: a mint that failed half-way is told, and told again when its numbers are given out (`C176_custody_refuted`).

## Not modelled

Candid wire format, bodies of HTTP answers, the hash tree behind the certificates (a root hash is the content it was
computed from) and the parsing of request URLs, `queries/icrc10.rs`,
`types/fund_manager.rs`, `migrations`, timers' scheduling, cycles, the management canister (creation is an oracle), the storage
sub-canister's own code, the `bity_ic_*` crates (log, storage manager) beyond their answers, identities and
network errors of the command line beyond the oracles of `ModelMain.v`. Texts are byte strings (the CBOR decoder checks that they are UTF-8; the messages' own decoding, which does the same, is not modelled); lower-casing is that of ASCII.
C65 assumes how the external log crate writes a transaction into a block; the assumption is the definition `encodes` in
`PropertiesCross.v`.

## Trusted base

Coq's kernel and the correspondence of the model with the Rust text, by reading. `Print Assumptions` is run after every
claimed theorem in the `Properties*.v` files; for each of them it answers `Closed under the global context`: no axiom is used,
neither of the standard library nor of std++. (The gate's list of axioms present in loaded libraries names
seven constants of `Coq.ssr.ssrunder`; no claimed theorem depends on them.)

As a check of the correspondence, `Conformance.v` replays the repository's integration tests (`integrations_tests`, which ran
against the compiled canisters) and unit tests on the model: 62 examples, all of which evaluate to success. Two of them
assert behaviour that the properties call wrong: collection approvals of the former owner vanish with one
`icrc37_transfer_from` (C26), and the second page in descending order is the first one again (C60). Left out are tests of
code outside the repository (storage canister, cycles, archives of the log) and HTTP downloads.

## Wrong programs

`seeded/LOG.jsonl` records edits of the model in a scratch copy that imitate realistic bugs, the claim each breaks, the
proofs that failed and the theorems tightened because of it.

Two series are kept. In the first, each edit is written by hand for a claim, the development is compiled again with every
failing proof replaced by an admission, and the theorems that fail or depend on a failed one are listed; the claim counts as
tested when one of its own theorems is among them. In the later runs only the files that the claim's theorems depend on were
compiled, so the lists there are not complete for other claims. Ten edits gave no result (six ill-typed, four stopped by an
inconsistent scratch build); they are in the log with a `note` and count for nothing. J13 was relabelled after its run from
C86, which it does not break, to C83; its `note` says so. In the second, a script changes one comparison, connective,
constant, operator or text of a definition at random and compiles until something fails; Examples are taken out first, so
that only theorems can notice. An edit that survives is either equivalent to the original, or a gap: the theorem that
closes the gap is named under `theorems_tightened`. Of 892 such edits 145 were ill-typed, 708 were noticed by a theorem at
once and 39 survived at first; every one of these is in the log, with the theorem added for it or the reason why it changes
nothing.
