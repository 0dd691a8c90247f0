#!/usr/bin/env python3
"""Writes properties.jsonl. One tuple per property, in order."""
import json, os
P = []
def p(title, statement, quantifier, why, anchors):
    P.append(dict(id="C%02d" % (len(P) + 1), title=title, statement=statement,
                  quantifier=quantifier, why_tests_cant=why, anchors=anchors))

CN = "src/core_nft/src/"
IX = "src/index_icrc7/src/"

# ---- ledger: ids, supply, ownership -----------------------------------------------------------
p("Token ids are fresh and never reused",
  "A successful mint of n requests creates exactly the n consecutive ids starting at the returned id; none of them was ever returned by an earlier successful mint, also when the earlier token was burned or transferred since.",
  "every history of update calls (any callers, times, arguments, log outcomes) and every mint in it",
  "Freshness is about all earlier calls of an unbounded history, including burns and failed mints.",
  [CN+"updates/management.rs: mint, burn_nft", CN+"state.rs: Data::last_token_id"])
p("Supply cap holds after every mint",
  "After a successful mint the total supply is at most the supply cap then in force (10000 when unset), and no other call ever increases the total supply.",
  "every state reachable by any history, every call",
  "Supply depends on the whole history of mints and burns, and the cap can be changed in between.",
  [CN+"updates/management.rs: mint, update_collection_metadata", CN+"queries/icrc7.rs: icrc7_total_supply, icrc7_supply_cap"])
p("Total supply counts live tokens: minted minus burned",
  "The total supply always equals the number of tokens created by successful mints minus the number of successful burns, and equals the number of ids for which owner_of answers an account.",
  "every history of calls from installation",
  "Needs an invariant over unbounded histories; tests check a few fixed counts.",
  [CN+"state.rs: total_supply", CN+"updates/management.rs: mint, burn_nft"])
p("Only an entitled caller can move or destroy a token",
  "If owner_of(t) differs before and after a call and t existed before, then either the caller is the principal of the previous owner account, or the call is icrc37_transfer_from and before the call the caller's account held an unexpired approval on t or an unexpired collection approval of the owner account.",
  "every state, caller, time, and every update call with any batch",
  "Authorization must hold for all callers and all states, in particular inside batches whose earlier items change the state.",
  [CN+"updates/icrc7.rs: transfer_nft", CN+"updates/icrc37.rs: transfer_from", CN+"updates/management.rs: burn_nft"])
p("A new owner starts free of the previous owner's approvals (icrc37_transfer_from)",
  "After a successful icrc37_transfer_from of t, t carries no token approval at all, so nobody except the new owner and spenders holding a collection approval of the new owner can move it.",
  "every state and every successful icrc37_transfer_from item",
  "It is a statement about all spenders, not the one a test tries.",
  [CN+"updates/icrc37.rs: transfer_from"])
p("A new owner starts free of the previous owner's approvals (icrc7_transfer)",
  "After a successful icrc7_transfer of t, nobody who was approved by the previous owner can move t without an approval by the new owner.",
  "every state and every successful icrc7_transfer item",
  "Requires considering an approval given before the transfer and used after it by any spender.",
  [CN+"updates/icrc7.rs: transfer_nft", CN+"updates/icrc37.rs: transfer_from"])
p("A refused item changes no owner and no supply",
  "An item of icrc7_transfer, icrc37_transfer_from, approve, revoke, or a mint or burn call that answers an error leaves owner_of of every token, the total supply and the transaction log unchanged.",
  "every state, every argument, every error path including a failing log",
  "There are dozens of error paths, each has to be followed from every state.",
  [CN+"updates/icrc7.rs: transfer_nft", CN+"updates/icrc37.rs: approve_token, transfer_from, revoke_token_approvals", CN+"updates/management.rs: mint, burn_nft"])
p("A trap changes nothing",
  "A call that traps (configured limits that do not fit a machine word, unencodable metadata, empty revoke batch) leaves every observable part of the state as it was.",
  "every state and call",
  "Traps can occur at any point of a batch after earlier items already executed.",
  [CN+"updates/icrc7.rs: icrc7_transfer", CN+"utils.rs: check_memo", CN+"types/value_custom.rs: encode", CN+"updates/icrc37.rs: icrc37_revoke_token_approvals"])
p("A successful icrc7_transfer moves exactly that token",
  "If an icrc7_transfer item answers Ok(i), then owner_of(t) is the requested recipient afterwards, the owner of every other token is unchanged, and block i of the log records this transfer.",
  "every state, caller, time, item and log outcome",
  "The Ok answer has several causes (including deduplication), in every state.",
  [CN+"updates/icrc7.rs: transfer_nft"])
p("A successful icrc37_transfer_from moves exactly that token",
  "If an icrc37_transfer_from item answers Ok(i), then the token's owner was the given from account, is the given to account afterwards, no other owner changes, and block i of the log records from, to, token and spender.",
  "every state, caller, time, item and log outcome",
  "All states and all arguments.",
  [CN+"updates/icrc37.rs: transfer_from"])
p("The transaction log is a complete audit trail of ownership",
  "Replaying the mint, transfer, transfer-from and burn blocks of the log from an empty ledger yields exactly the current ownership of every token.",
  "every history of calls from installation with any log outcomes",
  "A refinement between two data structures over unbounded histories with failures in the middle of batches.",
  [CN+"updates/management.rs: mint, burn_nft", CN+"updates/icrc7.rs: transfer_nft", CN+"updates/icrc37.rs: transfer_from"])
p("Tokens never go to the anonymous principal through icrc7_transfer, nor to the same account",
  "icrc7_transfer never gives a token to an account of the anonymous principal and never succeeds as a self transfer; the anonymous caller can transfer nothing.",
  "every state and batch",
  "All recipients including explicit default subaccounts must be covered.",
  [CN+"updates/icrc7.rs: transfer_nft, icrc7_transfer"])
p("Tokens never go to the anonymous principal through icrc37_transfer_from",
  "icrc37_transfer_from never gives a token to an account of the anonymous principal.",
  "every state and item",
  "All subaccounts of the recipient have to be considered.",
  [CN+"updates/icrc37.rs: transfer_from"])
p("Creation time window of transfers",
  "An icrc7_transfer that is accepted carries a creation time no later than the ledger time plus the permitted drift and no earlier than the ledger time minus (transaction window plus drift); with configured values that do not overflow, times inside the window are never refused as too old or in the future.",
  "every time, creation time, configured window and drift",
  "Boundary arithmetic over all 64-bit times and all configurations.",
  [CN+"updates/icrc7.rs: transfer_nft"])
p("Creation time window of approvals and approved transfers",
  "approve, revoke and transfer_from accept a creation time only if it lies within [ledger time - window, ledger time + drift].",
  "every time, creation time, configured window and drift",
  "Boundary arithmetic over all 64-bit values, including wrap-around.",
  [CN+"updates/icrc37.rs: verify_approval_timing"])
p("Memo size limit",
  "No accepted icrc7_transfer or mint carries a memo longer than the configured maximum (1000000 bytes when unset).",
  "every state and memo",
  "All lengths and configurations; every request of a batch.",
  [CN+"utils.rs: check_memo", CN+"updates/management.rs: mint"])
p("Batch answers are positional",
  "icrc7_transfer answers one entry per processed item, in order, where the processed items are the first max_update_batch_size ones, and the outcome of item k is the outcome of executing it alone in the state left by items 0..k-1.",
  "every batch and every state",
  "Batches of any length with any mix of outcomes.",
  [CN+"updates/icrc7.rs: icrc7_transfer", CN+"updates/icrc37.rs: icrc37_approve_tokens, icrc37_transfer_from"])
p("Atomic batch transfers are all-or-nothing",
  "When atomic_batch_transfers is set, an icrc7_transfer batch either transfers every item or none.",
  "every batch and every state with the flag set",
  "Needs a batch failing half way from an arbitrary state.",
  [CN+"updates/icrc7.rs: icrc7_transfer"])
p("Per-token rate limit",
  "For one token id, among the calls that pass the rate limiter in any history, no six fall into an interval shorter than 60 ms; and a call is refused by the limiter only if five calls on the same token passed it in the 60 ms before.",
  "every history with non-decreasing time, every token id",
  "Sliding window over all histories and all interleavings of tokens.",
  [CN+"guards.rs: guard_sliding_window"])
# ---- approvals ---------------------------------------------------------------------------------
p("Only the owner account can approve or revoke a token approval",
  "If the token approvals of t differ before and after an approve or revoke call, the caller's account (principal and given subaccount) owns t.",
  "every state, caller and batch",
  "All callers and states.",
  [CN+"updates/icrc37.rs: approve_token, revoke_token_approvals"])
p("An approval is usable until it expires",
  "After a successful token approval of a spender with no expiry or a later expiry, and with no other call on that token in between, a transfer_from by the spender at any later time before the expiry is authorized (it can fail only on the rate limiter, the recipient, the creation time or the log).",
  "every state, owner, spender, expiry and later time",
  "Liveness of an authorization over all later times.",
  [CN+"updates/icrc37.rs: approve_token, transfer_from"])
p("Expired approvals authorize nothing",
  "A spender whose approvals on t and on the owner's collection have all expired cannot move t, and the expired approval is dropped when it is tried.",
  "every state and time",
  "All times, both kinds of approval, and their combination.",
  [CN+"updates/icrc37.rs: transfer_from"])
p("Revocation is effective",
  "After a successful revoke of a spender (or of all spenders) on t, that spender has no token approval on t, all other spenders keep theirs exactly, and no other token's approvals change.",
  "every state, spender and item",
  "Frame condition over all other tokens and spenders.",
  [CN+"updates/icrc37.rs: revoke_token_approvals"])
p("The number of approvals is bounded",
  "No token and no account ever has more approvals than the maximum set at installation (10 when unset).",
  "every history from a successful installation",
  "Inductive bound over histories; the limit is checked before insertion, at one place of several that write.",
  [CN+"updates/icrc37.rs: approve_token, approve_collection", CN+"lifecycle/init.rs: init"])
p("Collection approvals can be revoked by the account that gave them",
  "After a successful revocation of a collection approval with a given from_subaccount, the named spender holds no collection approval of that account.",
  "every state, caller, subaccount and spender",
  "All subaccounts.",
  [CN+"updates/icrc37.rs: revoke_collection_approvals, approve_collection"])
p("Moving one token leaves the owner's collection approvals alone",
  "A successful transfer_from of one token of an account leaves the collection approvals of that account unchanged, as they cover its other tokens.",
  "every state and item",
  "Needs an owner with several tokens and approvals in an arbitrary state.",
  [CN+"updates/icrc37.rs: transfer_from"])
p("icrc37_is_approved tells what transfer_from would authorize",
  "For an existing token, icrc37_is_approved answers true for a spender exactly if a transfer_from by that spender from the current owner would be authorized at that time.",
  "every state, time, token and spender",
  "Equivalence of two code paths over all states.",
  [CN+"queries/icrc37.rs: icrc37_is_approved", CN+"updates/icrc37.rs: transfer_from"])
p("Listing approvals is complete and paged consistently",
  "icrc37_get_token_approvals without prev returns the approvals newest first, at most `take` of them (10 when unset), each being a stored approval of that token, and all of them when `take` is large enough.",
  "every state, token, prev and take",
  "All sizes and orders of the approval map.",
  [CN+"queries/icrc37.rs: icrc37_get_token_approvals, icrc37_get_collection_approvals"])
# ---- queries -----------------------------------------------------------------------------------
p("Paging through icrc7_tokens yields every token once, in order",
  "Calling icrc7_tokens repeatedly with prev = last id of the previous page until an empty page yields each existing token id exactly once, ascending; every page has at most the requested (or default) size.",
  "every state and every page size >= 1 allowed by the configuration",
  "All set sizes and page sizes, including page boundaries.",
  [CN+"queries/icrc7.rs: icrc7_tokens"])
p("icrc7_tokens_of agrees with icrc7_owner_of",
  "The ids paged out of icrc7_tokens_of(a) are exactly the tokens whose owner_of is the account a (default subaccount and absent subaccount being the same account), ascending and without repetition.",
  "every state, account and page size",
  "Agreement between two queries in all states.",
  [CN+"queries/icrc7.rs: icrc7_tokens_of, icrc7_owner_of", CN+"state.rs: tokens_ids_of_account"])
p("icrc7_balance_of agrees with icrc7_tokens_of",
  "icrc7_balance_of(a) is the number of tokens icrc7_tokens_of(a) lists in total.",
  "every history from installation, every account",
  "Two redundant data structures have to agree after every history.",
  [CN+"queries/icrc7.rs: icrc7_balance_of", CN+"state.rs: tokens_balance_of", CN+"updates/management.rs: burn_nft"])
p("Batch queries are positional and bounded",
  "icrc7_owner_of, icrc7_balance_of and icrc7_token_metadata answer one entry per argument in order, and refuse (trap) exactly the batches longer than max_query_batch_size (100 when unset or not representable).",
  "every state and batch",
  "All lengths and configurations.",
  [CN+"queries/icrc7.rs: icrc7_token_metadata, icrc7_owner_of, icrc7_balance_of"])
# ---- permissions, guards -----------------------------------------------------------------------
p("Management calls without the permission change nothing",
  "mint, update_nft_metadata, update_collection_metadata, the upload calls and grant/revoke by a caller lacking the respective permission leave the whole state unchanged.",
  "every state, caller and argument",
  "All callers and all states.",
  [CN+"guards.rs: create_permission_guard", CN+"updates/management.rs"])
p("Permissions grow only through holders of ManageAuthorities",
  "A principal gains or loses a permission only by a grant or revoke call of a caller that held ManageAuthorities at that moment, for exactly that principal and permission.",
  "every history of calls",
  "Privilege escalation has to be excluded over all histories.",
  [CN+"updates/management.rs: grant_permission, revoke_permission", CN+"types/permissions.rs"])
p("Granted means has, revoked means has not",
  "After a successful grant has_permission answers true; after a successful revoke it answers false no matter how often the permission was granted before; other users' and other permissions' answers do not change.",
  "every state, principal and permission",
  "Repeated grants are stored repeatedly; all multiplicities matter.",
  [CN+"types/permissions.rs: grant_permission, revoke_permission, has_permission"])
p("Management calls exclude each other",
  "At every moment at most one management call is in progress across awaits; while one is, every other guarded management call answers ConcurrentManagementCall and changes nothing.",
  "every interleaving of calls, replies, rejections and traps",
  "All message schedules.",
  [CN+"guards.rs: GuardManagement", CN+"updates/management.rs"])
p("The management lock is always released",
  "Once every outstanding call has been answered (successfully, with an error, or by a trap in the continuation), the lock is free and a management call can proceed.",
  "every interleaving without an upgrade in the middle of a call",
  "All schedules and all failure points after an await.",
  [CN+"guards.rs: GuardManagement", CN+"updates/management.rs"])
p("An upgrade does not block management for ever",
  "After an upgrade at any point the management lock is free, so management calls can proceed.",
  "every state at which an upgrade can happen, in particular while a storage call is outstanding",
  "Depends on the point of a schedule at which the upgrade falls.",
  [CN+"state.rs: RuntimeState::principal_guards", CN+"lifecycle/pre_upgrade.rs", CN+"lifecycle/post_upgrade.rs"])
p("Collection settings: partial update",
  "A successful update_collection_metadata changes exactly the settings given and no token, approval, permission or log entry; each getter then answers the new value.",
  "every state and every subset of settings",
  "2^15 subsets and all states.",
  [CN+"updates/management.rs: update_collection_metadata", CN+"queries/icrc7.rs"])
p("Installation parameters are reported back",
  "After installation each configuration getter answers the value given in the installation arguments.",
  "every successful installation",
  "All argument combinations.",
  [CN+"lifecycle/init.rs: init", CN+"state.rs: Data::new", CN+"queries/icrc7.rs"])
p("Upgrade preserves the ledger",
  "An upgrade changes no owner, approval, permission, metadata, setting, log entry, upload record or redirection.",
  "every reachable state",
  "All states, every field.",
  [CN+"lifecycle/pre_upgrade.rs", CN+"lifecycle/post_upgrade.rs"])
# ---- metadata ----------------------------------------------------------------------------------
p("A token's metadata is what it was minted with",
  "Right after a successful mint the metadata of each new token are exactly the pairs of its own request (for a repeated key the last value).",
  "every history, every mint",
  "Leftovers of earlier failed mints have to be considered.",
  [CN+"updates/management.rs: mint", CN+"types/nft.rs: add_metadata", CN+"types/metadata.rs: insert_data"])
p("Metadata update replaces and logs",
  "A successful update_nft_metadata makes the metadata of t exactly the given pairs, changes no other token's metadata and no owner, and logs a block holding the previous and the new metadata.",
  "every state, token and metadata",
  "Frame over all other tokens.",
  [CN+"updates/management.rs: update_nft_metadata", CN+"types/metadata.rs: replace_all_data"])
p("A failed metadata update changes nothing",
  "An update_nft_metadata that answers an error leaves the metadata of every token unchanged.",
  "every state, argument and log outcome",
  "Requires a log failure at the right point.",
  [CN+"updates/management.rs: update_nft_metadata"])
p("A failed mint changes nothing",
  "A mint that answers an error leaves owners, metadata, the next id and the log unchanged.",
  "every state, argument and log outcome",
  "Requires log failures in the middle of a batch.",
  [CN+"updates/management.rs: mint"])
p("Transfers and approvals do not touch metadata",
  "Metadata of a token change only through mint and update_nft_metadata calls, by a caller holding the respective permission.",
  "every history",
  "All calls, all states.",
  [CN+"types/metadata.rs", CN+"updates/icrc7.rs", CN+"updates/icrc37.rs"])
# ---- uploads -----------------------------------------------------------------------------------
p("Upload life cycle",
  "An upload record moves only absent -> Init -> InProgress -> Finalized, or from Init/InProgress to absent; it becomes Finalized only from InProgress, by a finalize call the storage canister accepted.",
  "every interleaving of upload calls, storage replies and other calls",
  "All schedules of asynchronous replies.",
  [CN+"updates/management.rs: init_upload, store_chunk, finalize_upload, cancel_upload"])
p("A finalized upload is permanent",
  "Once an upload is finalized its record stays Finalized and its redirection keeps pointing to the storage canister that holds it; later init, store, finalize and cancel calls on that path fail.",
  "every later history and interleaving",
  "All later calls.",
  [CN+"updates/management.rs: init_upload, store_chunk, finalize_upload, cancel_upload", CN+"types/http.rs: add_redirection"])
p("Redirections exist exactly for finalized uploads",
  "The redirection table maps a path to a URL exactly if an upload with that path (normalised with a leading slash) has been finalized, and the URL names the storage canister recorded for it.",
  "every history and interleaving",
  "Invariant over all schedules; two paths may normalise to the same one.",
  [CN+"updates/management.rs: finalize_upload"])
p("Storage canister selection respects size limits",
  "init_upload refuses files larger than 2 GiB, and a file is only placed on an existing canister whose reported size plus the file size is at most 500 GiB.",
  "every list of canisters, every reported size and failure pattern",
  "All lists and all failure patterns.",
  [CN+"types/sub_canister.rs: init_upload"])
p("The upload garbage collector cancels only stale unfinished uploads",
  "The daily job cancels an upload only if it was started more than a day ago and is not finalized.",
  "every set of uploads and every time",
  "Depends on clock values of arbitrary magnitude.",
  [CN+"jobs/upload_garbage_collector.rs"])
# ---- codecs ------------------------------------------------------------------------------------
p("Stored values decode to what was encoded",
  "Decoding the stored bytes of a metadata value, account, token id, approval map or metadata map gives back the value, for every value that can be encoded, also when other bytes follow. Conversely, whatever the bytes, a value read from them can be written and read back; bytes that are not UTF-8 are never read as a text.",
  "every value (any nesting depth, any length) with numbers in the 64-bit ranges",
  "Infinitely many nested values.",
  [CN+"types/value_custom.rs", CN+"types/wrapped_types.rs", CN+"types/metadata.rs", CN+"types/icrc37.rs: Approval"])
p("Different stored keys have different bytes",
  "The stored encodings of two different accounts, token ids or index keys differ and none is a prefix of another.",
  "every pair of keys",
  "All pairs.",
  [CN+"types/wrapped_types.rs", IX+"wrapped_values.rs", IX+"index.rs: IndexType"])
p("Exactly the values outside the 64-bit ranges cannot be stored",
  "Encoding a metadata value fails (traps) exactly if it contains somewhere a natural >= 2^64 or an integer outside the signed 64-bit range.",
  "every value",
  "All nestings.",
  [CN+"types/value_custom.rs"])
# ---- index canister ----------------------------------------------------------------------------
p("The index lists exactly the matching blocks",
  "When index updates do not overlap, after any number of update rounds the ids listed for an account, block type or token are exactly the blocks below the indexed height that mention it, newest first.",
  "every ledger content, every sequence of update rounds with any page boundaries",
  "Unbounded ledgers and histories.",
  [IX+"index.rs: add_block_to_index", IX+"jobs.rs: update_index", IX+"blocks.rs: extract_accounts, extract_token_id"])
p("Each block is indexed at most once per key",
  "An index entry never lists the same block twice.",
  "every ledger content and every schedule of update rounds, also overlapping ones",
  "Needs overlapping asynchronous jobs or unusual blocks.",
  [IX+"jobs.rs: update_index", IX+"index.rs: add_block_to_index"])
p("The index makes progress over any ledger",
  "As long as the ledger answers and has blocks above the indexed height, repeated update rounds increase the height.",
  "every ledger content",
  "Depends on the content of a single block in an arbitrary ledger.",
  [IX+"jobs.rs: update_index", IX+"index.rs: add_block_to_index"])
p("Filtered block queries return the intersection",
  "get_blocks with filters returns, for page [start, start+length), exactly the blocks listed under every filter key, by ascending id (or that page reversed when descending).",
  "every index content, filters, start and length",
  "All index contents.",
  [IX+"update/get_blocks.rs: get_blocks_with_filters"])
p("Paging through filtered blocks is complete",
  "Concatenating the pages start = 0, n, 2n, ... of a filtered ascending query gives every matching block exactly once, ascending.",
  "every index content and page length >= 1",
  "All sizes and page lengths.",
  [IX+"update/get_blocks.rs"])
p("Unfiltered block queries return the requested range",
  "get_blocks without filters returns the ledger's blocks with ids in [start, start+length) in the requested order.",
  "every ledger, start, length and order",
  "All ranges, both orders.",
  [IX+"update/get_blocks.rs: get_blocks"])
p("The block cache is transparent",
  "The blocks returned by the index canister are those the ledger and its archives hold, whatever the cache contains from earlier requests.",
  "every cache content filled by earlier requests, every request",
  "All cache contents and request histories.",
  [IX+"blocks.rs: get_all_blocks", IX+"cache.rs"])
p("Requests to the ledger cover exactly the missing blocks",
  "Grouping sorted ids into runs loses none, adds none, keeps the order, makes every run consecutive and is as coarse as possible.",
  "every sorted list of ids",
  "All lists.",
  [IX+"blocks.rs: group_consecutive_block_ids"])
p("Cached blocks are evicted by the clean-up job",
  "After the daily clean-up no cache entry older than the clean-up time remains.",
  "every cache content and time",
  "All cache contents.",
  [IX+"cache.rs: remove_all_values_older_than", IX+"jobs.rs: cleanup_cache"])
p("Block type names round-trip",
  "Parsing the printed name of a block type gives the type back, parsing is insensitive to case, and two types never share a name.",
  "every block type and every text",
  "All texts on the parsing side.",
  [IX+"blocks.rs: BlockType"])
p("Every ledger block can be indexed",
  "Every block the NFT canister logs has a type the index understands and is listed under its type, under its token id if it concerns a token, and under every account it names.",
  "every transaction the NFT canister can log",
  "A cross-canister agreement over all transactions.",
  [IX+"blocks.rs", IX+"index.rs", CN+"updates/icrc7.rs", CN+"updates/icrc37.rs", CN+"updates/management.rs"])
# ---- command line ------------------------------------------------------------------------------
p("The command line uploads the whole file in order",
  "The chunks sent by upload_file, in order of their ids 0,1,2,..., concatenate to the file, every chunk has at most chunk_size bytes and all but the last exactly that many.",
  "every file, chunk size >= 1 and every behaviour of the operating system's read calls",
  "All file lengths and short reads.",
  ["cmdline/src/calls/uploads.rs: upload_file"])
p("Permission names are understood in every spelling",
  "Each permission label printed by the tool is parsed back to that permission, in any letter case, and different permissions never share a spelling.",
  "every text",
  "All texts.",
  ["cmdline/src/calls/permissions.rs: parse_permission_from_str", "cmdline/src/commands.rs: handle_permissions"])
p("Metadata given on the command line arrives unchanged",
  "For an argument key:value the minted metadata hold that key with the value after the first colon.",
  "every argument text",
  "All texts, in particular values containing colons.",
  ["cmdline/src/commands.rs: handle_mint"])

# ---- added with the model ----------------------------------------------------------------------
p("Created storage canisters are never lost",
  "Every storage canister created by the NFT canister is in its list of storage canisters from then on.",
  "every history and every behaviour of the storage canisters",
  "Failure after creation needs a particular interleaving with another canister's refusal.",
  [CN+"updates/management.rs: init_upload", CN+"types/sub_canister.rs: init_upload"])
p("Consent messages describe the call",
  "A consent message is produced exactly for the six supported methods with decodable arguments; it names the operation and, for a batch of more than one, the number of items; it never traps.",
  "every method name and argument",
  "All argument lists, including empty ones.",
  [CN+"queries/icrc21.rs"])
p("Paging through uploads is complete",
  "While the uploads do not change, reading get_all_uploads page by page with a fixed page size shows every upload exactly once.",
  "every set of uploads, iteration order and page size >= 1",
  "All maps, orders and page sizes.",
  [CN+"updates/management.rs: get_all_uploads"])
p("Collection metadata agree with the getters",
  "icrc7_collection_metadata lists each setting once, with the value its getter answers, and omits unset ones.",
  "every state",
  "All combinations of set and unset settings.",
  [CN+"queries/icrc7.rs: icrc7_collection_metadata"])
p("Administrative reads are private",
  "The permission, storage canister and upload queries answer only to holders of the respective permission, and then exactly the stored data.",
  "every caller and state",
  "All callers.",
  [CN+"updates/management.rs: has_permission, get_user_permissions, get_all_storage_subcanisters, get_upload_status, get_all_uploads", CN+"guards.rs"])
p("Only announced block types are logged",
  "Every block ever logged has one of the types announced in icrc3_supported_block_types.",
  "every history",
  "All histories.",
  [CN+"lifecycle/init.rs", CN+"updates/icrc7.rs", CN+"updates/icrc37.rs", CN+"updates/management.rs"])

p("The upload tool stops at the first refusal",
  "If the canister refuses one of the calls of an upload, or a call is not delivered, the tool sends no further call and reports an error; it reports success only if the final call was accepted.",
  "every file, chunk size, read behaviour and sequence of replies",
  "All reply sequences.",
  ["cmdline/src/calls/uploads.rs: init, store, finalize, upload_file"])
p("Validation of token metadata files",
  "The tool's validator accepts exactly the JSON documents that are objects whose name, description, image and external_url (if present) are texts and whose attributes (if present) are a list of objects with a text trait_type, a value and, if present, a text display_type; every document the tool creates passes.",
  "every JSON document and every input of create-metadata",
  "Infinitely many documents.",
  ["cmdline/src/metadata.rs: validate_icrc97_metadata, create_icrc97_metadata", "cmdline/src/commands.rs: handle_create_metadata"])
p("Attributes given on the command line arrive unchanged",
  "An argument trait:value[:display] yields one attribute with that trait, that display type and the value as number or text.",
  "every argument and every behaviour of the float parser",
  "All texts.",
  ["cmdline/src/commands.rs: handle_create_metadata"])
p("The mint command names the intended account",
  "A mint request is sent exactly if the owner is the text of a principal and the subaccount, if given, is the hexadecimal text (any letter case) of 32 bytes; it carries that account, the memo's bytes and the given metadata.",
  "every argument text",
  "All texts.",
  ["cmdline/src/commands.rs: handle_mint", "cmdline/src/calls/mint.rs: mint_nft"])

p("Uploaded files are served by a certified redirection",
  "In every state an HTTP request for the path of a finalized upload is answered by a redirection to the storage canister that holds the file, under a witness that matches the certified data; a request for any other path is not answered; both also after upgrades.",
  "every path, every history with upgrades, every iteration order of the redirection map",
  "All upload histories interleaved with upgrades.",
  [CN+"queries/http_request.rs: http_request, serve_asset", CN+"types/http.rs: add_redirection", CN+"lifecycle/post_upgrade.rs"])
p("Diagnostic pages are certified",
  "The pages /logs, /traces and /metrics are answered with a certificate for the path that was asked for, under the data certified last.",
  "every state",
  "All histories with upgrades.",
  [CN+"queries/http_request.rs: serve_logs, serve_metrics", CN+"types/http.rs: certify_all_assets", CN+"lifecycle/init.rs", CN+"lifecycle/post_upgrade.rs"])

p("Approvals, revocations and delegated transfers are answered item by item",
  "The k-th answer of a batch of approvals, revocations or delegated transfers is the answer a call with that item alone gets in the state the preceding items left; every item is answered, of revocations the first max_revoke_approvals.",
  "every state, caller and batch",
  "All batches over all states.",
  [CN+"updates/icrc37.rs: icrc37_approve_tokens, icrc37_approve_collection, icrc37_revoke_token_approvals, icrc37_revoke_collection_approvals, icrc37_transfer_from"])
p("Configured batch limits hold for every update call",
  "No update call processes more items than max_update_batch_size (revocations: max_revoke_approvals).",
  "every state, caller and batch",
  "All batches over all configurations.",
  [CN+"updates/icrc7.rs: icrc7_transfer", CN+"updates/icrc37.rs", CN+"updates/management.rs: mint"])

p("The owner can move and burn a token",
  "The owner's transfer of a token succeeds and moves it, if the recipient is another account and not anonymous, memo and creation time are within the limits, fewer than five calls about the token passed in the last 60 ms and the log accepts the block; the owner's burn succeeds if no management call is in progress and the log accepts the block.",
  "every history of messages with non-decreasing times, every log behaviour",
  "Liveness over all histories: no earlier message, whoever sent it, may leave the token stuck.",
  [CN+"updates/icrc7.rs: icrc7_transfer, transfer_nft", CN+"updates/management.rs: burn_nft", CN+"guards.rs: guard_sliding_window"])
p("Owners can approve and revoke, spenders can spend",
  "Approvals by an owner within the limits succeed and are stored; revocations succeed and leave no approval they concern; whoever may move a token (owner, token approval, collection approval, not expired) moves it with icrc37_transfer_from.",
  "every history of messages with non-decreasing times, every log behaviour",
  "Liveness over all histories.",
  [CN+"updates/icrc37.rs: approve_token, approve_collection, revoke_token_approvals, revoke_collection_approvals, transfer_from"])
p("Permitted management calls succeed",
  "A minter's batch within the limits is minted to the given owners; a metadata update by a holder of the permission replaces the metadata; grants, revocations and settings take effect - whenever no other management call is in progress and the log accepts the blocks.",
  "every history of messages with non-decreasing times, every log behaviour",
  "Liveness over all histories.",
  [CN+"updates/management.rs: mint, update_nft_metadata, grant_permission, revoke_permission, update_collection_metadata"])
p("Nobody else can keep an owner from using a token",
  "Calls of others about a token do not make the owner's call about it fail.",
  "every history",
  "All interleavings of messages of strangers.",
  [CN+"guards.rs: guard_sliding_window", CN+"updates/icrc7.rs: transfer_nft"])

p("The log tells who is approved for a token",
  "Whoever reads the transaction log, applying approvals, revocations and delegated transfers in order, arrives at exactly the live token approvals; every stored approval is in the log with its giver, expiry, time and memo.",
  "every history, token, spender and time not before the last message",
  "Equality of two views over all histories, with clean-ups of expired approvals in between.",
  [CN+"updates/icrc37.rs: approve_token, revoke_token_approvals, transfer_from"])
p("The log tells who is approved for a collection",
  "The same for approvals of a whole collection.",
  "every history, owner account, spender and time not before the last message",
  "Equality of two views over all histories.",
  [CN+"updates/icrc37.rs: approve_collection, revoke_collection_approvals, transfer_from"])
p("Strangers change nothing",
  "Calls of a principal that holds no permission, owns no token, is approved for nothing and never approved anybody change nothing but the memory of the rate limiter, however many they are.",
  "every state, every number and kind of calls",
  "Frame property over the whole state and all calls and histories.",
  [CN+"updates/icrc7.rs", CN+"updates/icrc37.rs", CN+"updates/management.rs", CN+"guards.rs"])
p("The log only grows, in the order of time",
  "A message appends blocks bearing its own time and never removes or alters one; the times of the blocks never decrease.",
  "every history with non-decreasing times",
  "All histories.",
  [CN+"updates/icrc7.rs: transfer_nft", CN+"updates/icrc37.rs", CN+"updates/management.rs: mint, burn_nft, update_nft_metadata"])
p("Each success is logged once under the number answered",
  "A batch appends exactly one block per item answered with success, in order, under the number that was answered, describing that item; refused items append nothing; a mint appends one block per token in the order of ids; calls that do not change ownership, approvals or metadata append nothing.",
  "every state, caller, batch and log behaviour",
  "Correspondence between answers and log over all batches.",
  [CN+"updates/icrc7.rs: icrc7_transfer", CN+"updates/icrc37.rs", CN+"updates/management.rs: mint"])
p("Refusals name the true reason",
  "Every error answered by an update call states a fact about the state the call found: unauthorized means not the owner and not approved, a missing token does not exist, an invalid recipient is anonymous or the owner itself, too old and in the future are so, an exceeded limit is exceeded, a storage error means that the log refused.",
  "every state, caller, argument and log behaviour, for clocks and windows that fit 64 bits",
  "All combinations of reasons: a test shows one reason at a time, not that no other error hides it.",
  [CN+"updates/icrc7.rs: transfer_nft", CN+"updates/icrc37.rs", CN+"updates/management.rs: mint, burn_nft, update_nft_metadata"])
p("A repeated transfer is reported as a duplicate",
  "When the log knows a transfer already as block n, the caller is told that it is a duplicate of n, and nothing is executed again.",
  "every state, transfer and number n",
  "Needs the behaviour of the external log in all its answers.",
  [CN+"updates/icrc7.rs: transfer_nft", CN+"updates/icrc37.rs: transfer_from"])

p("Installation and upgrade take only their own arguments",
  "An installation given upgrade arguments and an upgrade given installation arguments do nothing; the version and commit reported are those of the last accepted upgrade, and an upgrade changes nothing else.",
  "every installation argument and every history of messages and upgrades",
  "All histories of upgrades, accepted and refused.",
  [CN+"lifecycle/init.rs: init", CN+"lifecycle/post_upgrade.rs: post_upgrade"])
p("Storage canisters obey the administrators of the collection",
  "A storage canister created now is told to obey the collection canister and exactly the present holders of ManageAuthorities.",
  "every installation and history of grants, revocations and upgrades",
  "Consistency of a list taken once with a table that changes afterwards.",
  [CN+"state.rs: Data::new", CN+"updates/management.rs: grant_permission, revoke_permission"])
p("Storage canisters run the code of the present version",
  "A storage canister created after an upgrade of the collection gets the storage code and the version of that upgrade.",
  "every installation and history of upgrades",
  "Depends on what survives an upgrade.",
  [CN+"lifecycle/post_upgrade.rs: post_upgrade", CN+"state.rs: Data::new"])
p("The log looks for duplicates as long as the ledger accepts a transfer",
  "The duplicate window of the transaction log equals the window in which the ledger accepts created_at_time.",
  "every installation argument and history",
  "Two defaults and two units in different places, over all settings.",
  [CN+"lifecycle/init.rs: init", CN+"utils.rs", CN+"updates/icrc7.rs: transfer_nft"])
p("HTTP shows no more than the guarded reads",
  "What a read call refuses to a caller without permission is not published to anybody by HTTP.",
  "every reachable state and path",
  "Information flow: all states, two interfaces.",
  [CN+"queries/http_request.rs", CN+"state.rs: metrics", CN+"updates/management.rs: get_user_permissions"])
p("Stable memories do not overlap",
  "No two users of stable memory share a memory region, in the collection canister and in the index.",
  "all pairs of regions",
  "A clash shows only when both users have written enough.",
  [CN+"memory.rs", "src/index_icrc7/src/memory.rs"])
p("An index serves one ledger for ever",
  "The ledger an index was installed for, its authorized principals and its mode are never changed by an upgrade; arguments of the wrong kind are refused.",
  "every installation argument and every sequence of upgrades",
  "All sequences of upgrades.",
  ["src/index_icrc7/src/lifecycle/init.rs: init", "src/index_icrc7/src/lifecycle/post_upgrade.rs: post_upgrade"])
p("A message changes only the tokens it names",
  "Owner, approvals and metadata of a token stay as they are under every message that does not name it, whoever sends it and whatever it does; only a mint brings a token into being.",
  "every reachable state, message and history",
  "Frame property over all messages and histories.",
  [CN+"updates/icrc7.rs", CN+"updates/icrc37.rs", CN+"updates/management.rs"])
p("A collection keeps an administrator",
  "Once somebody can manage permissions, there is always somebody who can.",
  "every history",
  "Needs the whole permission table over all histories.",
  [CN+"updates/management.rs: revoke_permission"])
p("The anonymous principal owns nothing",
  "No token ever belongs to an account of the anonymous principal.",
  "every history",
  "All ways by which a token gets an owner.",
  [CN+"updates/management.rs: mint", CN+"updates/icrc37.rs: transfer_from", CN+"updates/icrc7.rs: transfer_nft"])
p("The rate limiter needs bounded memory",
  "The memory of the rate limiter is bounded by the number of tokens, whatever callers send.",
  "every history",
  "Growth over arbitrarily long histories of refused calls.",
  [CN+"guards.rs: guard_sliding_window"])

p("Whoever may upload can complete an upload, and the file is served",
  "When no management call is in progress and storage accepts the data, whoever holds UpdateUploads can take a new file of at most 2 GiB through init, any number of chunks and finalize, whatever calls arrive while each of them waits for storage and whatever token calls arrive in between; the file is then finalized and its path is served by a certified redirection to the storage canister that took it, unless the path is a reserved name.",
  "every history leading to the upload, every number of chunks, every interleaving of other calls with the waiting upload calls",
  "Progress under all interleavings of asynchronous calls.",
  [CN+"updates/management.rs: init_upload, store_chunk, finalize_upload", CN+"queries/http_request.rs"])
p("The index catches up with its ledger",
  "Rounds of the index that complete one after another index 100 blocks each until all are indexed, whatever calls arrive in between; with a ledger that answers honestly and writes only known block types, an index left to itself reaches every height of the ledger and lists every block below it under everything the block is about.",
  "every ledger, every history of the index without overlapping rounds, every height",
  "A liveness statement about unbounded runs against an arbitrary ledger.",
  [IX+"jobs.rs: update_index", IX+"index.rs: add_block_to_index", IX+"blocks.rs"])

p("A transfer takes a token only from the account it names",
  "A successful icrc7_transfer moves a token only if the account made of the caller and the from_subaccount of the argument owns it.",
  "every reachable state, caller and batch of transfers",
  "All states and all combinations of owners and named subaccounts.",
  [CN+"updates/icrc7.rs: transfer_nft", CN+"types/icrc7.rs: TransferArg"])
p("The reported memo limit holds for every block",
  "No call logs a memo longer than the limit reported by icrc7_max_memo_size.",
  "every state, call and memo",
  "All calls that carry a memo, for all settings.",
  [CN+"updates/icrc37.rs", CN+"updates/icrc7.rs: transfer_nft", CN+"updates/management.rs: mint"])
p("An approval that has already expired is refused",
  "An approval whose expiry lies before the time of the call is not accepted.",
  "every state, caller and approval",
  "All states, times and approvals; also what such an approval does afterwards.",
  [CN+"updates/icrc37.rs: approve_token"])
p("Who gives a token away cannot take it back",
  "After a successful icrc7_transfer to another principal, no message of the sender moves the token.",
  "every reachable state and every later message of the sender",
  "All approvals that may exist before the transfer and all messages after it.",
  [CN+"updates/icrc7.rs: transfer_nft", CN+"updates/icrc37.rs: approve_token, transfer_from"])
p("An owner can renew the approval of a listed spender",
  "Approving a spender who already has an approval on the token replaces that approval, also when the number of approvals is at its limit.",
  "every reachable state, owner and spender",
  "Boundary of a configured limit in all states.",
  [CN+"updates/icrc37.rs: approve_token"])
p("A burned token leaves nothing behind",
  "After a token is burned no query shows anything about it, ever again.",
  "every reachable state and all later histories",
  "Unbounded histories after the burn.",
  [CN+"updates/management.rs: burn_nft", CN+"queries/icrc7.rs", CN+"queries/icrc37.rs"])
p("Calls of the token standards never trap",
  "icrc7_transfer and the five update calls of ICRC-37 answer every batch with a result, whatever the settings.",
  "every state, caller, batch and setting",
  "All arguments and settings including out-of-range ones.",
  [CN+"updates/icrc7.rs", CN+"updates/icrc37.rs: icrc37_revoke_token_approvals"])
p("Nobody can keep others from collection approvals",
  "Calls of one account do not make another account's approval or revocation for its collection fail.",
  "every history",
  "Interference between callers over all histories and times.",
  [CN+"guards.rs: guard_sliding_window", CN+"updates/icrc37.rs: approve_collection, revoke_collection_approvals"])
p("Paging through approvals continues where it stopped",
  "A page that names the last spender of the previous page starts behind that spender, also if the approval was revoked in between.",
  "every reachable state, iteration order and page size",
  "All interleavings of paging with revocations and all hash map orders.",
  [CN+"queries/icrc37.rs: icrc37_get_token_approvals"])
p("A revocation succeeds only if there was an approval",
  "A revocation that names a spender without an approval is answered ApprovalDoesNotExist and logs nothing; the answer is given only then.",
  "every reachable state, owner and spender",
  "All contents of the approval maps.",
  [CN+"updates/icrc37.rs: revoke_token_approvals, revoke_collection_approvals"])
p("The supply never exceeds the reported cap",
  "At every time icrc7_total_supply is at most the reported icrc7_supply_cap (10000 if none).",
  "every history",
  "Histories that mix minting, burning and changes of the settings.",
  [CN+"updates/management.rs: mint, update_collection_metadata"])
p("What installation refuses, updates refuse",
  "A value that the installation refuses for a setting cannot be set by update_collection_metadata.",
  "every history, all settings",
  "All histories of settings.",
  [CN+"lifecycle/init.rs: init", CN+"updates/management.rs: update_collection_metadata"])

p("The interactive mode enters what was typed",
  "Every entry typed into the interactive metadata dialogue of the mint command arrives with its key and value, in order.",
  "all sequences of input lines",
  "All dialogues, of any length, with all kinds of mistyped answers in between.",
  ["cmdline/src/metadata.rs: create_metadata_interactive_hashmap", "cmdline/src/prompts.rs"])
p("The interactive mode ends",
  "The dialogue ends with entries or an error for every finite input.",
  "all finite sequences of input lines",
  "Divergence cannot be observed by a test; all inputs.",
  ["cmdline/src/prompts.rs: prompt_bool", "cmdline/src/metadata.rs: create_metadata_interactive_hashmap"])
p("The document created interactively says what was typed",
  "The interactive metadata command produces a document with exactly the typed name, description, image, link and attributes, and it passes validation.",
  "all sequences of input lines and all number parsers",
  "All dialogues of any length, all attribute values.",
  ["cmdline/src/metadata.rs: create_metadata_interactive, create_icrc97_metadata", "cmdline/src/prompts.rs: prompt_display_type"])
p("Binary values are entered exactly",
  "A text is accepted as a binary value exactly if it is the base64 text of some bytes, and these bytes are stored.",
  "all texts and all byte strings",
  "All byte strings of any length, including wrong padding and non-zero trailing bits.",
  ["cmdline/src/metadata.rs: create_metadata_interactive_hashmap"])
p("The mint command mints what it says",
  "If the mint command prints an id, a new token of this id belongs to the account named and carries the metadata and name asked for; if it prints none, nothing was minted.",
  "all arguments, input lines and reachable states",
  "All argument texts against all states of the canister.",
  ["cmdline/src/commands.rs: handle_mint", "cmdline/src/calls/mint.rs", CN+"updates/management.rs: mint"])
p("The permission commands do what they print",
  "Granting and revoking by text change exactly the permission of the principal named; has and list print the permissions held, each once.",
  "all texts and reachable states",
  "All spellings, all permission tables.",
  ["cmdline/src/commands.rs: handle_permissions", "cmdline/src/calls/permissions.rs", CN+"types/permissions.rs", CN+"updates/management.rs: grant_permission, revoke_permission"])

p("The upload command uploads the file",
  "If the upload command reports success, the file's bytes, and no others, can be had at the path for ever; with the permission, a free path and willing storage every file can be uploaded.",
  "all files, chunk sizes and reachable states, all messages of other users before and between the calls, all replies of storage canisters that check the announced hash",
  "All interleavings of the tool's calls with those of other uploaders, across three kinds of programs.",
  ["cmdline/src/calls/uploads.rs: upload_file", "cmdline/src/commands.rs: handle_upload_file", CN+"updates/management.rs: init_upload, store_chunk, finalize_upload"])
p("A token minted with the URL of its document leads to the document",
  "After upload-metadata and mint with the printed URL, the token belongs to the account named, carries the URL, and the URL leads to the document, which is valid metadata; different documents have different URLs, and the command can be repeated.",
  "all documents, arguments, reachable states, and all messages of others before, between and after the two commands",
  "All histories between the two commands and all documents; needs the tool, the ledger, the certified HTTP side and the storage together.",
  ["cmdline/src/commands.rs: handle_upload_metadata, handle_mint", CN+"updates/management.rs: finalize_upload", CN+"queries/http_request.rs: http_request"])

p("What happens to a token depends only on that token",
  "The outcome of a transfer, approval, revocation or delegated transfer of one token, and all that is kept for it afterwards, depends only on the settings and on what is kept for this token (and, for a delegated transfer, on its owner's collection approvals).",
  "all items, callers, times, and any two states that agree on the token, reachable or not",
  "A non-interference statement about two arbitrary states at once.",
  [CN+"updates/icrc7.rs: transfer_nft", CN+"updates/icrc37.rs: approve_token, revoke_token_approvals, transfer_from", "src/core_nft/src/utils.rs"])
p("The order of calls about different tokens does not matter",
  "Calls about different tokens, by whomever, have the same outcome and leave the same owners, approvals and metadata in whatever order they arrive; so do the items of one batch.",
  "all reachable states, all sequences of any length and all their permutations",
  "All permutations of sequences of arbitrary length in all states.",
  [CN+"updates/icrc7.rs: icrc7_transfer, transfer_nft", CN+"updates/icrc37.rs: icrc37_approve_tokens, icrc37_revoke_token_approvals, icrc37_transfer_from"])

p("The calls and their answers determine the ledger",
  "Somebody who sees every call with its answer, and nothing else, knows the owner of every token, every approval that has not expired, all metadata, the next token id and all permissions: every answer tells whether and how the call was carried out.",
  "all installations and all histories of calls of every kind, with any errors, traps and lost replies",
  "A statement about all histories: no unit test compares every answer with every part of the state.",
  [CN+"updates/icrc7.rs: icrc7_transfer", CN+"updates/icrc37.rs", CN+"updates/management.rs", CN+"types/nft.rs", CN+"types/permissions.rs"])

p("Ledger and storage canisters agree about uploads",
  "Whenever no upload call is waiting, a file is at the storage canister its record names, in the state its record gives, and at no other storage canister: the upload records of the ledger describe what is stored.",
  "all sequences of messages, requests, failed and repeated attempts, lost replies, trapping continuations, upgrades and garbage collections, for every storage canister that obeys its interface",
  "The disagreement needs two canisters and a failure between them; the integration tests lose no reply and never stop a call half way.",
  [CN+"updates/management.rs: init_upload, store_chunk, finalize_upload, cancel_upload", CN+"types/sub_canister.rs", CN+"jobs/upload_garbage_collector.rs"])

p("An upload that went wrong can be cleared",
  "An unfinished upload can always be cancelled by somebody with the permission, after which the path can be used again.",
  "all states and all sequences of events after a failure",
  "That a path stays blocked is a statement about everything that may follow.",
  [CN+"updates/management.rs: cancel_upload, init_upload", CN+"types/sub_canister.rs", CN+"jobs/upload_garbage_collector.rs"])

p("Upload calls answer what the storage canister replied",
  "An upload call succeeds exactly when the storage canister's reply is a success, reports the error of the storage canister under the same name where there is one, and sends nothing to a canister that is not installed.",
  "all states, storage canisters, replies and outcomes of the attempts",
  "The mapping of errors is hidden behind three repetitions and two canisters; the tests see one error of each call at most.",
  [CN+"types/management.rs: from_storage_response", CN+"types/sub_canister.rs: StorageCanister", CN+"updates/management.rs"])

p("What is kept in stable memory reads back as it was",
  "After any history of messages, the metadata and the approvals of every token and collection are exactly what their keys and bytes in stable memory decode to: no stored entry is ever unreadable or read as something else.",
  "all installations, all histories of well-typed messages, all tokens, keys, nested values and enumeration orders of the hash maps",
  "The encoders are tested on ten values; that every value that can reach them is one they can write and read is an invariant of the whole ledger.",
  [CN+"types/wrapped_types.rs", CN+"types/value_custom.rs", CN+"types/metadata.rs", CN+"types/icrc37.rs", CN+"updates/icrc37.rs", CN+"updates/management.rs"])

p("Minting in one call or in several comes to the same",
  "A successful mint of several tokens does exactly what successive mints of any pieces of its list would do: the same ids, owners, metadata and blocks. Conversely two successful mints in a row could have been one, if the batch limit admits their tokens together.",
  "all reachable states, all lists of requests, all ways of cutting them",
  "Tests mint a few fixed batches; that no batch of any size differs from its pieces is a law over all cuts.",
  [CN+"updates/management.rs"])

p("The tool accepts the documents it created",
  "After create-metadata has ended well, the file it names exists, validate-metadata on it ends well, and upload-metadata on it announces it to the canister.",
  "all invocations, typed lines, files and outside worlds in which serde_json reads back what it printed up to rounding of numbers",
  "A test creates a few documents; that none that can be created is turned away later is a statement about all arguments and dialogues.",
  ["cmdline/src/main.rs", "cmdline/src/commands.rs", "cmdline/src/metadata.rs"])

p("Each command of the tool touches only what it is about",
  "Only uploads, mint, grant and revoke send calls that change the ledger; only create-metadata writes a file, the one it was told to; on the IC the root key is never fetched; validating and creating documents does not depend on the network.",
  "all invocations, typed lines, files and outside worlds",
  "Absence of an effect cannot be tested for all arguments and answers of the network.",
  ["cmdline/src/main.rs", "cmdline/src/commands.rs", "cmdline/src/utils.rs", "cmdline/src/cli.rs"])

p("The index tells the owner of a token",
  "Once the index has taken in the whole log, the last block it lists under a token that makes, moves or destroys the token names the present owner in its 'to' field, or is a burn if there is no owner.",
  "all reachable ledgers, all tokens ever made, all histories of an index reading that ledger",
  "Joins two canisters over arbitrary histories; a test reads back a few transfers.",
  [IX+"blocks.rs", IX+"index.rs", CN+"updates/icrc7.rs", CN+"updates/icrc37.rs", CN+"updates/management.rs"])

p("What the index keeps in stable memory reads back as it was",
  "Every key and list of blocks of the index and every cached block, as the canister sees them, are what the bytes written for them in stable memory decode to, with nothing left over.",
  "all histories of timers, requests, upgrades and replies, honest or not, whose texts are UTF-8 and whose numbers have the width of the interface",
  "All contents of all histories: the round-trip tests of the code encode a handful of values.",
  [IX+"index.rs", IX+"cache.rs", IX+"wrapped_values.rs", IX+"blocks.rs", IX+"jobs.rs"])

p("A consent message tells what is signed",
  "Two calls with the same consent message change the ownership of tokens alike: the text tells which token goes to whom.",
  "all requests for consent, decoders, callers, states",
  "Needs a comparison of the texts of all pairs of calls; a test looks at one text.",
  [CN+"queries/icrc21.rs"])

p("Whatever disposes of a token has a consent message",
  "For every call through which a token leaves its owner or an approval changes, a consent message can be had.",
  "all calls, arguments, callers, reachable states",
  "All calls in all states: which calls can dispose of a token is itself a statement about every function.",
  [CN+"queries/icrc21.rs", CN+"updates/management.rs", CN+"updates/icrc7.rs", CN+"updates/icrc37.rs"])

p("Every HTTP answer carries the protection headers",
  "Whatever path is asked for, an answer has every header name once, all protections (no framing, no sniffing, no caching, encrypted only, no camera, ...), a type that is not run, and status 200 for the three reserved pages or 307 with the recorded target for a redirection.",
  "all paths, all histories with upgrades",
  "All paths and states; the HTTP tests fetch a few files.",
  [CN+"types/http.rs", CN+"queries/http_request.rs"])

p("An interrupted upload is completed by repeating the command",
  "When the upload command stopped half-way, for whatever reason, the upload is unfinished or finished with this file unless somebody cancels it; starting the command again with the same file completes it although its announcement is now refused, and if the command reports success the file, and no other, is had at the path.",
  "all files, chunk sizes, points of interruption and messages of others short of cancellation, with storage canisters that take chunks again and check the hash",
  "The states an interrupted command leaves are many, and the tests of the tool upload without interruption.",
  ["cmdline/src/calls/uploads.rs", CN+"updates/management.rs"])

p("The tool reports success exactly when it was granted what it asked for",
  "The command-line tool exits with success only if every request it sent was granted, and it does so whenever the last call of its command was granted.",
  "all invocations, files and lines typed, and all behaviours of network, canister and operating system",
  "A test runs against a canister that answers in one way; scripts rely on the exit status under all of them.",
  ["cmdline/src/main.rs", "cmdline/src/commands.rs", "cmdline/src/calls/uploads.rs", "cmdline/src/calls/mint.rs", "cmdline/src/calls/permissions.rs"])

p("The rate limiter says when the next call is possible",
  "A caller refused by the rate limiter is told a time. Once that time is over the next call about the same token is not refused by the limiter, and before that no call about it succeeds.",
  "every history with non-decreasing times, every token, every pair of calls about it by any callers",
  "The number told depends on the whole recent history; a test checks that there is some text.",
  ["src/core_nft/src/guards.rs: guard_sliding_window"])

p("Reading the tokens page by page misses none that stays",
  "A client reads icrc7_tokens or icrc7_tokens_of page by page while minting, burning and transfers go on between the pages. The reading ends, lists ids in ascending order without repetition, contains every token that existed (was owned by the account) all the time, and contains only tokens that existed (were owned by it) when one of the pages was read.",
  "all sequences of reachable states between the pages, page sizes from 1 within the limit, ids below any bound",
  "A test reads a collection that stands still; the claim is about all interleavings with all changes.",
  ["src/core_nft/src/queries/icrc7.rs: icrc7_tokens, icrc7_tokens_of"])

p("Reading the index page by page misses nothing while it grows",
  "A client asks the index canister for the pages 0, n, 2n, ... of the blocks of an account, token or type while new blocks are indexed between the pages. Read together the full pages are an initial part of the blocks asked for, each once and in order; when a page is short, all blocks that were indexed when it was asked for have been read.",
  "all ledgers, histories of the index at each page, filters and page sizes",
  "All interleavings of reading with indexing.",
  ["src/index_icrc7/src/index.rs", "src/index_icrc7/src/update/get_blocks.rs", "src/index_icrc7/src/jobs.rs"])

p("Reading the uploads page by page misses none that stays",
  "Reading get_all_uploads page by page shows every upload that is there all the time, while others come and go.",
  "all orders of iteration, page sizes and interleavings",
  "The pages are positions in a hash map; a test sees one order and a map that stands still.",
  ["src/core_nft/src/updates/management.rs: get_all_uploads"])

p("Each permission gives power over its own part only",
  "A message changes the settings, the permissions, the set of tokens and the next id, the metadata of a token, or the uploads, redirections and storage canisters only if it is a call of the kind that needs UpdateCollectionMetadata, ManageAuthorities, Minting, UpdateMetadata or UpdateUploads respectively and its sender holds that permission, or, for uploads, if it is the reply to a call whose sender holds UpdateUploads still. Over any history: as long as nobody with the permission makes a call of its kind, its part stays as it was.",
  "all reachable states, messages, callers and histories",
  "Tests try a few callers on a few calls; the claim is that no call by anybody reaches a part it has no permission for.",
  ["src/core_nft/src/updates/management.rs", "src/core_nft/src/guards.rs", "src/core_nft/src/types/permissions.rs", "src/core_nft/src/updates/icrc7.rs", "src/core_nft/src/updates/icrc37.rs"])

p("The administrators' work on permissions and uploads cannot be seen by others",
  "Two ledgers that differ only in permissions, uploads, storage canisters, redirections, lock and waiting calls answer every other call and every unguarded read the same. So in any history the granting, revoking and uploading can be left out without changing the public part of the ledger or the answer of any other call; and a caller without permissions is told the same whatever they call.",
  "all pairs of states, histories and callers",
  "A property of pairs of executions: a test compares answers with expectations, not with those of all ledgers that differ in what is not to be seen.",
  ["src/core_nft/src/guards.rs", "src/core_nft/src/updates/management.rs", "src/core_nft/src/updates/icrc7.rs", "src/core_nft/src/updates/icrc37.rs", "src/core_nft/src/queries/icrc7.rs", "src/core_nft/src/queries/icrc37.rs"])

p("Repeating a call whose answer was lost does nothing a second time",
  "If a call is sent again because its answer was lost, then of the two executions at most one changes any owner, approval, permission, item of metadata, setting or upload: what the first changed the second leaves as it is, whatever the clock, the rate limiter and the log say to either. Announcing, finishing and cancelling an upload again after the answer changes nothing, storing a chunk again leaves the same record. (Minting is not like this: it mints again.)",
  "all reachable states, calls, pairs of times and of answers of the log",
  "Clients repeat calls on a time-out; a test would have to repeat every call in every state, with the rate limiter and the log deciding differently each time.",
  ["src/core_nft/src/updates/icrc7.rs", "src/core_nft/src/updates/icrc37.rs", "src/core_nft/src/updates/management.rs"])

p("The program knows nobody by name",
  "If all principals but the anonymous one are given other names, in the installation arguments, in the ledger and in the calls, then every call leaves the renamed ledger and gets the same answer, and every read gives the renamed answer. So nobody has a power that installation and grants did not give: there is no built-in administrator and no name that is treated differently.",
  "all states, histories, messages and all bijections of principals that fix the anonymous one",
  "A back door for one principal is invisible to every test that does not use that principal; the claim compares executions under all renamings.",
  ["src/core_nft/src/guards.rs", "src/core_nft/src/lifecycle/init.rs", "src/core_nft/src/updates/icrc7.rs", "src/core_nft/src/updates/icrc37.rs", "src/core_nft/src/updates/management.rs", "src/core_nft/src/queries/icrc7.rs", "src/core_nft/src/queries/icrc37.rs"])

p("Only lengths of time count",
  "If every time is moved by the same amount - the clock, the times callers give, the times in the ledger, in the blocks and in the history of the rate limiter - then every call leaves the same ledger with its times moved and gets the same answer but for the ledger time in it, and every read gives the same. The ledger starts without any time in it. So there is no built-in date after which the program behaves differently, as long as the clock and the time settings added to it fit 64 bits.",
  "all states, histories and messages, all shifts of the clock that keep it and the time settings within 64 bits",
  "A test runs on one date; that the behaviour does not depend on the date compares executions at all dates.",
  ["src/core_nft/src/updates/icrc7.rs", "src/core_nft/src/updates/icrc37.rs", "src/core_nft/src/guards.rs", "src/core_nft/src/updates/management.rs", "src/core_nft/src/queries/icrc37.rs", "src/core_nft/src/jobs/upload_garbage_collector.rs"])

p("The default subaccount may be written in either way",
  "An account without a subaccount and the account with 32 zero bytes are the same account. Two histories that differ only in which of the two ways accounts are written get the same answers, message by message, and leave ledgers that differ only in that way, and what is read of them is the same up to that difference. The one exception is icrc37_is_approved, which compares the subaccounts of collection approvals literally: an account that approved itself for the collection gets different answers for the two ways.",
  "all states, histories and messages, all ways of writing the accounts in them",
  "A test writes its accounts in one way; that the other way never matters compares pairs of histories of any length.",
  ["src/core_nft/src/updates/icrc7.rs", "src/core_nft/src/updates/icrc37.rs", "src/core_nft/src/updates/management.rs", "src/core_nft/src/queries/icrc7.rs", "src/core_nft/src/queries/icrc37.rs"])

p("A further permission never does harm",
  "Whatever is not refused for lack of permission gets the same answer and does the same when more is permitted, to whomever, and afterwards again more is permitted. So along any history in which nobody is refused for lack of permission, permissions that were not used can be withdrawn without anybody noticing, and the guarded reads tell the same.",
  "all states, histories and messages, all pairs of permission tables of which one allows whatever the other allows",
  "A test fixes one table of permissions; that a larger one never makes a difference compares all pairs of tables over histories of any length.",
  ["src/core_nft/src/guards.rs", "src/core_nft/src/types/permissions.rs", "src/core_nft/src/updates/management.rs"])

p("A higher limit refuses nothing that was granted",
  "If the supply cap and the limits of batches, memos, approvals and revocations are raised, then every call in whose way no limit stood gets the same answer as before and has the same effect. Limits of 2^32 or more are the exception: with such a limit for memos a transfer that was granted traps.",
  "all states, histories and messages, all pairs of settings of which one has limits no lower than the other's, new limits below 2^32",
  "A test fixes one setting; that a higher limit changes nothing else compares all pairs of settings over histories of any length.",
  ["src/core_nft/src/updates/icrc7.rs", "src/core_nft/src/updates/icrc37.rs", "src/core_nft/src/updates/management.rs", "src/core_nft/src/utils.rs"])

p("What is written in memos and metadata is carried, never read",
  "If every memo is replaced by another of the same length, and every value in the metadata of tokens by another that can be stored exactly if the first can, in the messages and in the ledger, then every call gets the same answer and the ledger afterwards is the same but for the replaced contents, which appear in the same places: in approvals, in blocks and in the metadata. So no memo and no attribute of a token makes the program treat anybody or anything differently.",
  "all states, histories and messages, all replacements that keep the length of memos and whether values can be stored, any log that answers alike for the replaced blocks",
  "A test uses some memos and some metadata; that no content whatever makes a difference compares all pairs of contents over histories of any length.",
  ["src/core_nft/src/updates/icrc7.rs", "src/core_nft/src/updates/icrc37.rs", "src/core_nft/src/updates/management.rs", "src/core_nft/src/utils.rs: check_memo", "src/core_nft/src/types/metadata.rs"])

p("Two indexes of one ledger agree",
  "Two index canisters that read the same ledger, each in its own rounds and in its own order of replies, archives and calls, agree: the one that has read less lists under every key what the other lists, but for blocks it has not read; if both have read as far, they list the same in the same order and give the same blocks in answer to the same query, filtered or not, whatever their caches hold. Rounds of reading must not overlap, otherwise they can differ.",
  "all ledgers, all pairs of histories of the two indexes with rounds that do not overlap, all keys, filters and pages",
  "A test feeds one index; agreement of two with independent schedules quantifies over pairs of histories.",
  ["src/index_icrc7/src/index.rs", "src/index_icrc7/src/update/get_blocks.rs", "src/index_icrc7/src/jobs.rs"])

p("Only approvals in force count",
  "Two ledgers that differ only in approvals that have expired answer every call alike, and afterwards the same approvals are in force, as long as no approval is refused for the number of approvals; so expired approvals can be cleared out at any moment without anybody noticing by an answer. They do take up room under the limit of approvals: an approval that has expired stands in the way of a new one until its spender has been refused.",
  "all states, histories and messages whose clock does not run backwards, any behaviour of the log",
  "A test tries one expired approval in one place; that expired approvals make no difference to any call compares all pairs of ledgers over histories of any length.",
  ["src/core_nft/src/updates/icrc37.rs: transfer_from, approve_token, approve_collection, revoke_token_approvals, revoke_collection_approvals"])

p("A refused call might as well not have been made",
  "With a log that takes what it is given, a call that is refused as a whole (a trap, a rejection, an error, or an error for every item) leaves nothing behind but what the rate limiter remembers, and at most drops approvals that have expired. Any number of refused calls can therefore be left out of a history: the other calls get the same answers and the ledger ends with the same tokens, metadata, permissions, blocks, uploads and approvals in force, unless one of those calls meets the rate limiter or the limit of approvals. The refusals that do leave something: the upload calls that cancel the upload because its storage canister is unknown, and calls refused because the log failed.",
  "all states, all histories with a clock that does not run backwards, all choices of refused calls to leave out",
  "A test compares one refused call in one state; that refusals never matter later quantifies over all histories with any set of refused calls removed.",
  ["src/core_nft/src/updates/icrc7.rs", "src/core_nft/src/updates/icrc37.rs", "src/core_nft/src/updates/management.rs"])

p("The numbers of tokens are only names",
  "If the tokens had other numbers - in the ledger, in the calls, in the blocks and in the history of the rate limiter - every call would leave the same ledger with the other numbers and get the same answer, with the other number where the answer is the number of a token, and every read would show the same; pages of tokens too if the renumbering keeps the order. So no token is treated differently for its number, two tokens could have each other's number, and a ledger that had given out more numbers before would do the same. The renumbering must leave 0 alone, which no token has: calls about number 0 count as calls about the collection for the rate limiter.",
  "all reachable states, all calls and histories, all injective renumberings that fix 0, keep the order of the numbers not given out yet and stay below 2^64",
  "A test uses a few numbers; that the outcome never depends on which numbers they are is a statement about all pairs of ledgers.",
  ["src/core_nft/src/updates/icrc7.rs", "src/core_nft/src/updates/icrc37.rs", "src/core_nft/src/updates/management.rs", "src/core_nft/src/guards.rs"])

p("Who makes no call keeps the tokens",
  "The holder of a token need do nothing to keep it. Whatever others call, in any number and order, as long as none of them owns the account of the holder or is approved for the token or for the collection of that account, the token stays in the account and no approval is added. In particular a token minted to somebody who makes no call in the whole history of the ledger is theirs at the end, whatever the administrators, minters and other holders do. For a token received by a transfer this is not enough: the approvals given by the giver go with it, so their spender can take it away from a receiver who has never made a call.",
  "all reachable states, all histories of calls by outsiders; all histories from the installation",
  "A test plays some attacks on a passive holder; that no sequence of calls by all other parties together takes the token is a statement about all histories.",
  ["src/core_nft/src/updates/icrc7.rs", "src/core_nft/src/updates/icrc37.rs", "src/core_nft/src/updates/management.rs"])

p("An approval is good for one transfer at most",
  "In any history from the installation, a spender moves at most as many tokens of others as approvals were given to them, for tokens and for collections together: every transfer for somebody else uses up an approval of the spender, whether for the token or for the whole collection, and nothing but an approval given to the spender adds one. So an approval for a collection of many tokens puts one of them at risk, not all.",
  "all spenders, all states, all histories; all histories from the installation",
  "A test sees an approval used once and refused the second time; that over all interleavings of approvals, transfers, revocations and expiries the count never comes out ahead is an invariant over histories.",
  ["src/core_nft/src/updates/icrc37.rs"])

p("The log is a complete audit trail of the metadata",
  "The blocks tell the metadata of every token at any time: those it was minted with, and every change since, each starting where the one before ended, the last one ending with the metadata that the ledger shows. (The code does not put the metadata of a mint into the log, and an update that the log refuses has changed the metadata all the same. Otherwise the chain is complete: from the metadata of the mint through the updates in the log to those shown.)",
  "all reachable states, all histories in which the log refuses no update of metadata; whole lives of tokens from the mint on",
  "A test checks the block of one update; that the blocks of all updates of a token, among all other calls, form an unbroken chain to what is shown is a statement about histories.",
  ["src/core_nft/src/updates/management.rs:123-324", "src/core_nft/src/queries/icrc7.rs:177-211"])

p("The ledger refines a machine of a dozen rules",
  "Whatever calls arrive, in whatever order and with whatever answers of the log and of the storage canisters, owners, approvals, token numbers and permissions change only by these rules: an owner transfers, approves, revokes or burns; a spender whose approval is in force (or the owner) moves the token, which uses up all approvals of the token and of the account; an approval that is over is forgotten; a minter adds tokens with the next numbers; a manager grants or takes permissions. Each rule has its condition and its full effect, and a call can only apply its own rules to the items it names.",
  "all reachable states, all calls, all histories from an installation on; every property kept by the rules is kept by the ledger",
  "Tests exercise single rules; that nothing but these rules ever happens is a refinement between the code and the small machine.",
  ["src/core_nft/src/updates/icrc7.rs:14-159", "src/core_nft/src/updates/icrc37.rs:14-851", "src/core_nft/src/updates/management.rs:123-371", "src/core_nft/src/updates/management.rs:640-670"])

p("A collection approval covers every token of the account, now and later",
  "An account can approve a spender for its collection whether or not it holds a token by then (ICRC-37), and until the approval ends the spender can move any token that the account holds, also tokens that it receives later. (In the code a principal that holds no token is refused, and the first token moved uses the approval up. Proved: as long as no token was moved out of the account by a spender, and its principal gave and revoked no collection approval, every token the account holds by then can be moved.)",
  "all reachable states, all histories between the approval and the transfer that leave the approvals of the account alone, all tokens",
  "A test moves a token held at the time of the approval; the tokens that come and go in between are a history.",
  ["src/core_nft/src/updates/icrc37.rs:231-377", "src/core_nft/src/updates/icrc37.rs:661-851"])

p("Whatever the ledger keeps has its block",
  "No call adds a record to the ledger without a block of its kind in the log: there are never more tokens than mint blocks, never more approvals of tokens or of collections than blocks of their making, and no metadata without a block. (The code keeps the metadata of a mint that the log refused, see C45; the other records are so bounded.)",
  "all reachable states, all calls, all answers of the log",
  "A test sees the records of one call; the bound is an invariant of all histories with a log that may refuse anything.",
  ["src/core_nft/src/updates/management.rs:123-227", "src/core_nft/src/updates/icrc37.rs:65-377"])

p("What everybody has renounced is closed for ever",
  "Once nobody holds the permission to manage authorities, nobody ever gets or loses a permission again. What nobody is permitted to do by then is never done again: without minters no token is ever added, without minters and updaters the metadata of all tokens stay, without the permission for it the settings of the collection stay, and the uploaded files and their redirections stay. Owners keep the use of their tokens.",
  "all reachable states in which nobody manages authorities, all histories from there, upgrades included",
  "Buyers rely on a collection being closed for ever; no finite set of tries shows that there is no way back.",
  ["src/core_nft/src/updates/management.rs:28-370", "src/core_nft/src/updates/management.rs:640-670", "src/core_nft/src/types/permissions.rs:25-53", "src/core_nft/src/guards.rs:13-125"])

p("The balances of all accounts add up to the total supply",
  "If icrc7_balance_of is asked about different accounts that between them own every token, the answers add up to icrc7_total_supply.",
  "all histories and all lists of accounts that between them own every token",
  "A sum over all accounts after any number of mints, transfers and burns.",
  ["src/core_nft/src/state.rs:197-204", "src/core_nft/src/queries/icrc7.rs:127-130", "src/core_nft/src/queries/icrc7.rs:237-261", "src/core_nft/src/updates/management.rs:326-372"])

p("A token is lost only by its holder's own doing",
  "Whenever a token leaves an account, the call is made by the principal of that account, or an earlier call of that principal approved the spender for a time not yet over.",
  "all histories from the installation, all messages after them",
  "The reason for a loss lies arbitrarily far back in the history, with any number of approvals, revocations and transfers in between.",
  ["src/core_nft/src/updates/icrc37.rs:56-377", "src/core_nft/src/updates/icrc37.rs:658-860", "src/core_nft/src/updates/icrc7.rs:13-114", "src/core_nft/src/updates/management.rs:326-372"])

p("What was served once is served for ever, at the same address",
  "Once a visitor of a path is redirected to a file, every later visitor of the path is redirected to it, whatever is uploaded, cancelled, granted or upgraded in between; the answer stays certified.",
  "all reachable states of ledger and router, all continuations, all iteration orders of upgrades, all paths",
  "Tests visit a file right after its upload; the promise is about the whole life of the collection, including every upgrade, which rebuilds the router.",
  ["src/core_nft/src/queries/http_request.rs:15-117", "src/core_nft/src/updates/management.rs:469-540", "src/core_nft/src/lifecycle/post_upgrade.rs:24-65", "src/core_nft/src/types/http.rs:29-107"])

p("One message with several items or several messages come to the same",
  "For transfers, approvals, delegated transfers and revocations: a call with many items ends in the same state with the same answers as calls with parts of the list, made one after the other.",
  "all states, callers, lists of items and ways of cutting them",
  "The number of ways to cut a batch is exponential, and each item depends on what the items before it left.",
  ["src/core_nft/src/updates/icrc7.rs:116-159", "src/core_nft/src/updates/icrc37.rs:50-63", "src/core_nft/src/updates/icrc37.rs:214-229", "src/core_nft/src/updates/icrc37.rs:379-420", "src/core_nft/src/updates/icrc37.rs:517-546", "src/core_nft/src/updates/icrc37.rs:646-659"])

p("Both parties find a change of ownership in the index under their accounts",
  "Whenever a message takes a token from an account or gives it to one, an index that is up to date lists under that account a block written by that message, about that token, naming the account as its source or destination.",
  "all histories of the ledger, all messages in them, all runs of the index, all tokens and accounts",
  "It joins three programs (ledger, log, index); a test sees one transfer in an index that has just read it.",
  [IX+"index.rs: add_block_to_index", IX+"blocks.rs: extract_accounts, extract_token_id", "src/core_nft/src/updates/icrc7.rs:13-114", "src/core_nft/src/updates/icrc37.rs:661-851", "src/core_nft/src/updates/management.rs:326-372"])

p("An approval ends only by the holder's act, by use or by time",
  "An approval in force stays as it is until the holder of the token (for collections: the account that gave it) revokes or renews it, it is used (for tokens: a spender moves the token), or its time is over; no other message of anybody ends it.",
  "all states, all histories from them, all approvals",
  "The messages that must not end the approval are all others, in any number and order.",
  ["src/core_nft/src/updates/icrc37.rs:65-212", "src/core_nft/src/updates/icrc37.rs:231-377", "src/core_nft/src/updates/icrc37.rs:422-515", "src/core_nft/src/updates/icrc37.rs:548-644", "src/core_nft/src/updates/icrc37.rs:661-851"])

p("Every permission goes back to the installation",
  "Whoever holds a permission was named at installation or has it by a grant answered Ok, made by somebody who held ManageAuthorities then and for whom the same is true, and has kept it since; so has whoever is not turned away from a management call, and whoever minted a token that exists. A circle that contains everybody named at installation and grants nothing to outsiders keeps all permissions to itself.",
  "all installations, all histories from them, all principals and permissions",
  "The chain of grants may have any length and may run through people who have long lost their rights.",
  ["src/core_nft/src/updates/management.rs:640-670", "src/core_nft/src/types/permissions.rs:42-53", "src/core_nft/src/lifecycle/init.rs:46-188"])

p("What an account holds is what came in less what went out",
  "The number of tokens of an account, and the balance reported for it, is the number of blocks that brought it a token (mints and transfers to it) less the number of blocks that took one away (transfers from it and burns); between two moments it changes by the blocks written in between.",
  "all installations, all histories, all accounts",
  "The books have to balance for every account after every history, not for the accounts of one scenario.",
  ["src/core_nft/src/updates/icrc7.rs", "src/core_nft/src/updates/icrc37.rs:661-851", "src/core_nft/src/updates/management.rs:326-371", "src/core_nft/src/state.rs"])

p("Every token has an unbroken chain of custody",
  "The blocks about a token begin with its mint and tell it only there; every later block, a transfer or the burn, takes the token from the account the block before left it with; the last one leaves it with the owner the ledger names, or with nobody after a burn. Exactly the numbers given out have such papers.",
  "all installations, all histories, all token ids",
  "A gap can arise from any interleaving of mints, transfers, delegated transfers, burns and refusals of the log.",
  ["src/core_nft/src/updates/icrc7.rs", "src/core_nft/src/updates/icrc37.rs:661-851", "src/core_nft/src/updates/management.rs:326-371"])

out = os.path.join(os.path.dirname(os.path.abspath(__file__)), "..", "properties.jsonl")
with open(out, "w") as f:
    for x in P:
        f.write(json.dumps(x) + "\n")
for x in P:
    print(x["id"], x["title"])
