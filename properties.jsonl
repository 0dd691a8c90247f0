{"id": "C01", "title": "Token ids are fresh and never reused", "statement": "A successful mint of n requests creates exactly the n consecutive ids starting at the returned id; none of them was ever returned by an earlier successful mint, also when the earlier token was burned or transferred since.", "quantifier": "every history of update calls (any callers, times, arguments, log outcomes) and every mint in it", "why_tests_cant": "Freshness is about all earlier calls of an unbounded history, including burns and failed mints.", "anchors": ["src/core_nft/src/updates/management.rs: mint, burn_nft", "src/core_nft/src/state.rs: Data::last_token_id"]}
{"id": "C02", "title": "Supply cap holds after every mint", "statement": "After a successful mint the total supply is at most the supply cap then in force (10000 when unset), and no other call ever increases the total supply.", "quantifier": "every state reachable by any history, every call", "why_tests_cant": "Supply depends on the whole history of mints and burns, and the cap can be changed in between.", "anchors": ["src/core_nft/src/updates/management.rs: mint, update_collection_metadata", "src/core_nft/src/queries/icrc7.rs: icrc7_total_supply, icrc7_supply_cap"]}
{"id": "C03", "title": "Total supply counts live tokens: minted minus burned", "statement": "The total supply always equals the number of tokens created by successful mints minus the number of successful burns, and equals the number of ids for which owner_of answers an account.", "quantifier": "every history of calls from installation", "why_tests_cant": "Needs an invariant over unbounded histories; tests check a few fixed counts.", "anchors": ["src/core_nft/src/state.rs: total_supply", "src/core_nft/src/updates/management.rs: mint, burn_nft"]}
{"id": "C04", "title": "Only an entitled caller can move or destroy a token", "statement": "If owner_of(t) differs before and after a call and t existed before, then either the caller is the principal of the previous owner account, or the call is icrc37_transfer_from and before the call the caller's account held an unexpired approval on t or an unexpired collection approval of the owner account.", "quantifier": "every state, caller, time, and every update call with any batch", "why_tests_cant": "Authorization must hold for all callers and all states, in particular inside batches whose earlier items change the state.", "anchors": ["src/core_nft/src/updates/icrc7.rs: transfer_nft", "src/core_nft/src/updates/icrc37.rs: transfer_from", "src/core_nft/src/updates/management.rs: burn_nft"]}
{"id": "C05", "title": "A new owner starts free of the previous owner's approvals (icrc37_transfer_from)", "statement": "After a successful icrc37_transfer_from of t, t carries no token approval at all, so nobody except the new owner and spenders holding a collection approval of the new owner can move it.", "quantifier": "every state and every successful icrc37_transfer_from item", "why_tests_cant": "It is a statement about all spenders, not the one a test tries.", "anchors": ["src/core_nft/src/updates/icrc37.rs: transfer_from"]}
{"id": "C06", "title": "A new owner starts free of the previous owner's approvals (icrc7_transfer)", "statement": "After a successful icrc7_transfer of t, nobody who was approved by the previous owner can move t without an approval by the new owner.", "quantifier": "every state and every successful icrc7_transfer item", "why_tests_cant": "Requires considering an approval given before the transfer and used after it by any spender.", "anchors": ["src/core_nft/src/updates/icrc7.rs: transfer_nft", "src/core_nft/src/updates/icrc37.rs: transfer_from"]}
{"id": "C07", "title": "A refused item changes no owner and no supply", "statement": "An item of icrc7_transfer, icrc37_transfer_from, approve, revoke, or a mint or burn call that answers an error leaves owner_of of every token, the total supply and the transaction log unchanged.", "quantifier": "every state, every argument, every error path including a failing log", "why_tests_cant": "There are dozens of error paths, each has to be followed from every state.", "anchors": ["src/core_nft/src/updates/icrc7.rs: transfer_nft", "src/core_nft/src/updates/icrc37.rs: approve_token, transfer_from, revoke_token_approvals", "src/core_nft/src/updates/management.rs: mint, burn_nft"]}
{"id": "C08", "title": "A trap changes nothing", "statement": "A call that traps (configured limits that do not fit a machine word, unencodable metadata, empty revoke batch) leaves every observable part of the state as it was.", "quantifier": "every state and call", "why_tests_cant": "Traps can occur at any point of a batch after earlier items already executed.", "anchors": ["src/core_nft/src/updates/icrc7.rs: icrc7_transfer", "src/core_nft/src/utils.rs: check_memo", "src/core_nft/src/types/value_custom.rs: encode", "src/core_nft/src/updates/icrc37.rs: icrc37_revoke_token_approvals"]}
{"id": "C09", "title": "A successful icrc7_transfer moves exactly that token", "statement": "If an icrc7_transfer item answers Ok(i), then owner_of(t) is the requested recipient afterwards, the owner of every other token is unchanged, and block i of the log records this transfer.", "quantifier": "every state, caller, time, item and log outcome", "why_tests_cant": "The Ok answer has several causes (including deduplication), in every state.", "anchors": ["src/core_nft/src/updates/icrc7.rs: transfer_nft"]}
{"id": "C10", "title": "A successful icrc37_transfer_from moves exactly that token", "statement": "If an icrc37_transfer_from item answers Ok(i), then the token's owner was the given from account, is the given to account afterwards, no other owner changes, and block i of the log records from, to, token and spender.", "quantifier": "every state, caller, time, item and log outcome", "why_tests_cant": "All states and all arguments.", "anchors": ["src/core_nft/src/updates/icrc37.rs: transfer_from"]}
{"id": "C11", "title": "The transaction log is a complete audit trail of ownership", "statement": "Replaying the mint, transfer, transfer-from and burn blocks of the log from an empty ledger yields exactly the current ownership of every token.", "quantifier": "every history of calls from installation with any log outcomes", "why_tests_cant": "A refinement between two data structures over unbounded histories with failures in the middle of batches.", "anchors": ["src/core_nft/src/updates/management.rs: mint, burn_nft", "src/core_nft/src/updates/icrc7.rs: transfer_nft", "src/core_nft/src/updates/icrc37.rs: transfer_from"]}
{"id": "C12", "title": "Tokens never go to the anonymous principal through icrc7_transfer, nor to the same account", "statement": "icrc7_transfer never gives a token to an account of the anonymous principal and never succeeds as a self transfer; the anonymous caller can transfer nothing.", "quantifier": "every state and batch", "why_tests_cant": "All recipients including explicit default subaccounts must be covered.", "anchors": ["src/core_nft/src/updates/icrc7.rs: transfer_nft, icrc7_transfer"]}
{"id": "C13", "title": "Tokens never go to the anonymous principal through icrc37_transfer_from", "statement": "icrc37_transfer_from never gives a token to an account of the anonymous principal.", "quantifier": "every state and item", "why_tests_cant": "All subaccounts of the recipient have to be considered.", "anchors": ["src/core_nft/src/updates/icrc37.rs: transfer_from"]}
{"id": "C14", "title": "Creation time window of transfers", "statement": "An icrc7_transfer that is accepted carries a creation time no later than the ledger time plus the permitted drift and no earlier than the ledger time minus (transaction window plus drift); with configured values that do not overflow, times inside the window are never refused as too old or in the future.", "quantifier": "every time, creation time, configured window and drift", "why_tests_cant": "Boundary arithmetic over all 64-bit times and all configurations.", "anchors": ["src/core_nft/src/updates/icrc7.rs: transfer_nft"]}
{"id": "C15", "title": "Creation time window of approvals and approved transfers", "statement": "approve, revoke and transfer_from accept a creation time only if it lies within [ledger time - window, ledger time + drift].", "quantifier": "every time, creation time, configured window and drift", "why_tests_cant": "Boundary arithmetic over all 64-bit values, including wrap-around.", "anchors": ["src/core_nft/src/updates/icrc37.rs: verify_approval_timing"]}
{"id": "C16", "title": "Memo size limit", "statement": "No accepted icrc7_transfer or mint carries a memo longer than the configured maximum (1000000 bytes when unset).", "quantifier": "every state and memo", "why_tests_cant": "All lengths and configurations; every request of a batch.", "anchors": ["src/core_nft/src/utils.rs: check_memo", "src/core_nft/src/updates/management.rs: mint"]}
{"id": "C17", "title": "Batch answers are positional", "statement": "icrc7_transfer answers one entry per processed item, in order, where the processed items are the first max_update_batch_size ones, and the outcome of item k is the outcome of executing it alone in the state left by items 0..k-1.", "quantifier": "every batch and every state", "why_tests_cant": "Batches of any length with any mix of outcomes.", "anchors": ["src/core_nft/src/updates/icrc7.rs: icrc7_transfer", "src/core_nft/src/updates/icrc37.rs: icrc37_approve_tokens, icrc37_transfer_from"]}
{"id": "C18", "title": "Atomic batch transfers are all-or-nothing", "statement": "When atomic_batch_transfers is set, an icrc7_transfer batch either transfers every item or none.", "quantifier": "every batch and every state with the flag set", "why_tests_cant": "Needs a batch failing half way from an arbitrary state.", "anchors": ["src/core_nft/src/updates/icrc7.rs: icrc7_transfer"]}
{"id": "C19", "title": "Per-token rate limit", "statement": "For one token id, among the calls that pass the rate limiter in any history, no six fall into an interval shorter than 60 ms; and a call is refused by the limiter only if five calls on the same token passed it in the 60 ms before.", "quantifier": "every history with non-decreasing time, every token id", "why_tests_cant": "Sliding window over all histories and all interleavings of tokens.", "anchors": ["src/core_nft/src/guards.rs: guard_sliding_window"]}
{"id": "C20", "title": "Only the owner account can approve or revoke a token approval", "statement": "If the token approvals of t differ before and after an approve or revoke call, the caller's account (principal and given subaccount) owns t.", "quantifier": "every state, caller and batch", "why_tests_cant": "All callers and states.", "anchors": ["src/core_nft/src/updates/icrc37.rs: approve_token, revoke_token_approvals"]}
{"id": "C21", "title": "An approval is usable until it expires", "statement": "After a successful token approval of a spender with no expiry or a later expiry, and with no other call on that token in between, a transfer_from by the spender at any later time before the expiry is authorized (it can fail only on the rate limiter, the recipient, the creation time or the log).", "quantifier": "every state, owner, spender, expiry and later time", "why_tests_cant": "Liveness of an authorization over all later times.", "anchors": ["src/core_nft/src/updates/icrc37.rs: approve_token, transfer_from"]}
{"id": "C22", "title": "Expired approvals authorize nothing", "statement": "A spender whose approvals on t and on the owner's collection have all expired cannot move t, and the expired approval is dropped when it is tried.", "quantifier": "every state and time", "why_tests_cant": "All times, both kinds of approval, and their combination.", "anchors": ["src/core_nft/src/updates/icrc37.rs: transfer_from"]}
{"id": "C23", "title": "Revocation is effective", "statement": "After a successful revoke of a spender (or of all spenders) on t, that spender has no token approval on t, all other spenders keep theirs exactly, and no other token's approvals change.", "quantifier": "every state, spender and item", "why_tests_cant": "Frame condition over all other tokens and spenders.", "anchors": ["src/core_nft/src/updates/icrc37.rs: revoke_token_approvals"]}
{"id": "C24", "title": "The number of approvals is bounded", "statement": "No token and no account ever has more approvals than the maximum set at installation (10 when unset).", "quantifier": "every history from a successful installation", "why_tests_cant": "Inductive bound over histories; the limit is checked before insertion, at one place of several that write.", "anchors": ["src/core_nft/src/updates/icrc37.rs: approve_token, approve_collection", "src/core_nft/src/lifecycle/init.rs: init"]}
{"id": "C25", "title": "Collection approvals can be revoked by the account that gave them", "statement": "After a successful revocation of a collection approval with a given from_subaccount, the named spender holds no collection approval of that account.", "quantifier": "every state, caller, subaccount and spender", "why_tests_cant": "All subaccounts.", "anchors": ["src/core_nft/src/updates/icrc37.rs: revoke_collection_approvals, approve_collection"]}
{"id": "C26", "title": "Moving one token leaves the owner's collection approvals alone", "statement": "A successful transfer_from of one token of an account leaves the collection approvals of that account unchanged, as they cover its other tokens.", "quantifier": "every state and item", "why_tests_cant": "Needs an owner with several tokens and approvals in an arbitrary state.", "anchors": ["src/core_nft/src/updates/icrc37.rs: transfer_from"]}
{"id": "C27", "title": "icrc37_is_approved tells what transfer_from would authorize", "statement": "For an existing token, icrc37_is_approved answers true for a spender exactly if a transfer_from by that spender from the current owner would be authorized at that time.", "quantifier": "every state, time, token and spender", "why_tests_cant": "Equivalence of two code paths over all states.", "anchors": ["src/core_nft/src/queries/icrc37.rs: icrc37_is_approved", "src/core_nft/src/updates/icrc37.rs: transfer_from"]}
{"id": "C28", "title": "Listing approvals is complete and paged consistently", "statement": "icrc37_get_token_approvals without prev returns the approvals newest first, at most `take` of them (10 when unset), each being a stored approval of that token, and all of them when `take` is large enough.", "quantifier": "every state, token, prev and take", "why_tests_cant": "All sizes and orders of the approval map.", "anchors": ["src/core_nft/src/queries/icrc37.rs: icrc37_get_token_approvals, icrc37_get_collection_approvals"]}
{"id": "C29", "title": "Paging through icrc7_tokens yields every token once, in order", "statement": "Calling icrc7_tokens repeatedly with prev = last id of the previous page until an empty page yields each existing token id exactly once, ascending; every page has at most the requested (or default) size.", "quantifier": "every state and every page size >= 1 allowed by the configuration", "why_tests_cant": "All set sizes and page sizes, including page boundaries.", "anchors": ["src/core_nft/src/queries/icrc7.rs: icrc7_tokens"]}
{"id": "C30", "title": "icrc7_tokens_of agrees with icrc7_owner_of", "statement": "The ids paged out of icrc7_tokens_of(a) are exactly the tokens whose owner_of is the account a (default subaccount and absent subaccount being the same account), ascending and without repetition.", "quantifier": "every state, account and page size", "why_tests_cant": "Agreement between two queries in all states.", "anchors": ["src/core_nft/src/queries/icrc7.rs: icrc7_tokens_of, icrc7_owner_of", "src/core_nft/src/state.rs: tokens_ids_of_account"]}
{"id": "C31", "title": "icrc7_balance_of agrees with icrc7_tokens_of", "statement": "icrc7_balance_of(a) is the number of tokens icrc7_tokens_of(a) lists in total.", "quantifier": "every history from installation, every account", "why_tests_cant": "Two redundant data structures have to agree after every history.", "anchors": ["src/core_nft/src/queries/icrc7.rs: icrc7_balance_of", "src/core_nft/src/state.rs: tokens_balance_of", "src/core_nft/src/updates/management.rs: burn_nft"]}
{"id": "C32", "title": "Batch queries are positional and bounded", "statement": "icrc7_owner_of, icrc7_balance_of and icrc7_token_metadata answer one entry per argument in order, and refuse (trap) exactly the batches longer than max_query_batch_size (100 when unset or not representable).", "quantifier": "every state and batch", "why_tests_cant": "All lengths and configurations.", "anchors": ["src/core_nft/src/queries/icrc7.rs: icrc7_token_metadata, icrc7_owner_of, icrc7_balance_of"]}
{"id": "C33", "title": "Management calls without the permission change nothing", "statement": "mint, update_nft_metadata, update_collection_metadata, the upload calls and grant/revoke by a caller lacking the respective permission leave the whole state unchanged.", "quantifier": "every state, caller and argument", "why_tests_cant": "All callers and all states.", "anchors": ["src/core_nft/src/guards.rs: create_permission_guard", "src/core_nft/src/updates/management.rs"]}
{"id": "C34", "title": "Permissions grow only through holders of ManageAuthorities", "statement": "A principal gains or loses a permission only by a grant or revoke call of a caller that held ManageAuthorities at that moment, for exactly that principal and permission.", "quantifier": "every history of calls", "why_tests_cant": "Privilege escalation has to be excluded over all histories.", "anchors": ["src/core_nft/src/updates/management.rs: grant_permission, revoke_permission", "src/core_nft/src/types/permissions.rs"]}
{"id": "C35", "title": "Granted means has, revoked means has not", "statement": "After a successful grant has_permission answers true; after a successful revoke it answers false no matter how often the permission was granted before; other users' and other permissions' answers do not change.", "quantifier": "every state, principal and permission", "why_tests_cant": "Repeated grants are stored repeatedly; all multiplicities matter.", "anchors": ["src/core_nft/src/types/permissions.rs: grant_permission, revoke_permission, has_permission"]}
{"id": "C36", "title": "Management calls exclude each other", "statement": "At every moment at most one management call is in progress across awaits; while one is, every other guarded management call answers ConcurrentManagementCall and changes nothing.", "quantifier": "every interleaving of calls, replies, rejections and traps", "why_tests_cant": "All message schedules.", "anchors": ["src/core_nft/src/guards.rs: GuardManagement", "src/core_nft/src/updates/management.rs"]}
{"id": "C37", "title": "The management lock is always released", "statement": "Once every outstanding call has been answered (successfully, with an error, or by a trap in the continuation), the lock is free and a management call can proceed.", "quantifier": "every interleaving without an upgrade in the middle of a call", "why_tests_cant": "All schedules and all failure points after an await.", "anchors": ["src/core_nft/src/guards.rs: GuardManagement", "src/core_nft/src/updates/management.rs"]}
{"id": "C38", "title": "An upgrade does not block management for ever", "statement": "After an upgrade at any point the management lock is free, so management calls can proceed.", "quantifier": "every state at which an upgrade can happen, in particular while a storage call is outstanding", "why_tests_cant": "Depends on the point of a schedule at which the upgrade falls.", "anchors": ["src/core_nft/src/state.rs: RuntimeState::principal_guards", "src/core_nft/src/lifecycle/pre_upgrade.rs", "src/core_nft/src/lifecycle/post_upgrade.rs"]}
{"id": "C39", "title": "Collection settings: partial update", "statement": "A successful update_collection_metadata changes exactly the settings given and no token, approval, permission or log entry; each getter then answers the new value.", "quantifier": "every state and every subset of settings", "why_tests_cant": "2^15 subsets and all states.", "anchors": ["src/core_nft/src/updates/management.rs: update_collection_metadata", "src/core_nft/src/queries/icrc7.rs"]}
{"id": "C40", "title": "Installation parameters are reported back", "statement": "After installation each configuration getter answers the value given in the installation arguments.", "quantifier": "every successful installation", "why_tests_cant": "All argument combinations.", "anchors": ["src/core_nft/src/lifecycle/init.rs: init", "src/core_nft/src/state.rs: Data::new", "src/core_nft/src/queries/icrc7.rs"]}
{"id": "C41", "title": "Upgrade preserves the ledger", "statement": "An upgrade changes no owner, approval, permission, metadata, setting, log entry, upload record or redirection.", "quantifier": "every reachable state", "why_tests_cant": "All states, every field.", "anchors": ["src/core_nft/src/lifecycle/pre_upgrade.rs", "src/core_nft/src/lifecycle/post_upgrade.rs"]}
{"id": "C42", "title": "A token's metadata is what it was minted with", "statement": "Right after a successful mint the metadata of each new token are exactly the pairs of its own request (for a repeated key the last value).", "quantifier": "every history, every mint", "why_tests_cant": "Leftovers of earlier failed mints have to be considered.", "anchors": ["src/core_nft/src/updates/management.rs: mint", "src/core_nft/src/types/nft.rs: add_metadata", "src/core_nft/src/types/metadata.rs: insert_data"]}
{"id": "C43", "title": "Metadata update replaces and logs", "statement": "A successful update_nft_metadata makes the metadata of t exactly the given pairs, changes no other token's metadata and no owner, and logs a block holding the previous and the new metadata.", "quantifier": "every state, token and metadata", "why_tests_cant": "Frame over all other tokens.", "anchors": ["src/core_nft/src/updates/management.rs: update_nft_metadata", "src/core_nft/src/types/metadata.rs: replace_all_data"]}
{"id": "C44", "title": "A failed metadata update changes nothing", "statement": "An update_nft_metadata that answers an error leaves the metadata of every token unchanged.", "quantifier": "every state, argument and log outcome", "why_tests_cant": "Requires a log failure at the right point.", "anchors": ["src/core_nft/src/updates/management.rs: update_nft_metadata"]}
{"id": "C45", "title": "A failed mint changes nothing", "statement": "A mint that answers an error leaves owners, metadata, the next id and the log unchanged.", "quantifier": "every state, argument and log outcome", "why_tests_cant": "Requires log failures in the middle of a batch.", "anchors": ["src/core_nft/src/updates/management.rs: mint"]}
{"id": "C46", "title": "Transfers and approvals do not touch metadata", "statement": "Metadata of a token change only through mint and update_nft_metadata calls, by a caller holding the respective permission.", "quantifier": "every history", "why_tests_cant": "All calls, all states.", "anchors": ["src/core_nft/src/types/metadata.rs", "src/core_nft/src/updates/icrc7.rs", "src/core_nft/src/updates/icrc37.rs"]}
{"id": "C47", "title": "Upload life cycle", "statement": "An upload record moves only absent -> Init -> InProgress -> Finalized, or from Init/InProgress to absent; it becomes Finalized only from InProgress, by a finalize call the storage canister accepted.", "quantifier": "every interleaving of upload calls, storage replies and other calls", "why_tests_cant": "All schedules of asynchronous replies.", "anchors": ["src/core_nft/src/updates/management.rs: init_upload, store_chunk, finalize_upload, cancel_upload"]}
{"id": "C48", "title": "A finalized upload is permanent", "statement": "Once an upload is finalized its record stays Finalized and its redirection keeps pointing to the storage canister that holds it; later init, store, finalize and cancel calls on that path fail.", "quantifier": "every later history and interleaving", "why_tests_cant": "All later calls.", "anchors": ["src/core_nft/src/updates/management.rs: init_upload, store_chunk, finalize_upload, cancel_upload", "src/core_nft/src/types/http.rs: add_redirection"]}
{"id": "C49", "title": "Redirections exist exactly for finalized uploads", "statement": "The redirection table maps a path to a URL exactly if an upload with that path (normalised with a leading slash) has been finalized, and the URL names the storage canister recorded for it.", "quantifier": "every history and interleaving", "why_tests_cant": "Invariant over all schedules; two paths may normalise to the same one.", "anchors": ["src/core_nft/src/updates/management.rs: finalize_upload"]}
{"id": "C50", "title": "Storage canister selection respects size limits", "statement": "init_upload refuses files larger than 2 GiB, and a file is only placed on an existing canister whose reported size plus the file size is at most 500 GiB.", "quantifier": "every list of canisters, every reported size and failure pattern", "why_tests_cant": "All lists and all failure patterns.", "anchors": ["src/core_nft/src/types/sub_canister.rs: init_upload"]}
{"id": "C51", "title": "The upload garbage collector cancels only stale unfinished uploads", "statement": "The daily job cancels an upload only if it was started more than a day ago and is not finalized.", "quantifier": "every set of uploads and every time", "why_tests_cant": "Depends on clock values of arbitrary magnitude.", "anchors": ["src/core_nft/src/jobs/upload_garbage_collector.rs"]}
{"id": "C52", "title": "Stored values decode to what was encoded", "statement": "Decoding the stored bytes of a metadata value, account, token id, approval map or metadata map gives back the value, for every value that can be encoded, also when other bytes follow. Conversely, whatever the bytes, a value read from them can be written and read back; bytes that are not UTF-8 are never read as a text.", "quantifier": "every value (any nesting depth, any length) with numbers in the 64-bit ranges", "why_tests_cant": "Infinitely many nested values.", "anchors": ["src/core_nft/src/types/value_custom.rs", "src/core_nft/src/types/wrapped_types.rs", "src/core_nft/src/types/metadata.rs", "src/core_nft/src/types/icrc37.rs: Approval"]}
{"id": "C53", "title": "Different stored keys have different bytes", "statement": "The stored encodings of two different accounts, token ids or index keys differ and none is a prefix of another.", "quantifier": "every pair of keys", "why_tests_cant": "All pairs.", "anchors": ["src/core_nft/src/types/wrapped_types.rs", "src/index_icrc7/src/wrapped_values.rs", "src/index_icrc7/src/index.rs: IndexType"]}
{"id": "C54", "title": "Exactly the values outside the 64-bit ranges cannot be stored", "statement": "Encoding a metadata value fails (traps) exactly if it contains somewhere a natural >= 2^64 or an integer outside the signed 64-bit range.", "quantifier": "every value", "why_tests_cant": "All nestings.", "anchors": ["src/core_nft/src/types/value_custom.rs"]}
{"id": "C55", "title": "The index lists exactly the matching blocks", "statement": "When index updates do not overlap, after any number of update rounds the ids listed for an account, block type or token are exactly the blocks below the indexed height that mention it, newest first.", "quantifier": "every ledger content, every sequence of update rounds with any page boundaries", "why_tests_cant": "Unbounded ledgers and histories.", "anchors": ["src/index_icrc7/src/index.rs: add_block_to_index", "src/index_icrc7/src/jobs.rs: update_index", "src/index_icrc7/src/blocks.rs: extract_accounts, extract_token_id"]}
{"id": "C56", "title": "Each block is indexed at most once per key", "statement": "An index entry never lists the same block twice.", "quantifier": "every ledger content and every schedule of update rounds, also overlapping ones", "why_tests_cant": "Needs overlapping asynchronous jobs or unusual blocks.", "anchors": ["src/index_icrc7/src/jobs.rs: update_index", "src/index_icrc7/src/index.rs: add_block_to_index"]}
{"id": "C57", "title": "The index makes progress over any ledger", "statement": "As long as the ledger answers and has blocks above the indexed height, repeated update rounds increase the height.", "quantifier": "every ledger content", "why_tests_cant": "Depends on the content of a single block in an arbitrary ledger.", "anchors": ["src/index_icrc7/src/jobs.rs: update_index", "src/index_icrc7/src/index.rs: add_block_to_index"]}
{"id": "C58", "title": "Filtered block queries return the intersection", "statement": "get_blocks with filters returns, for page [start, start+length), exactly the blocks listed under every filter key, by ascending id (or that page reversed when descending).", "quantifier": "every index content, filters, start and length", "why_tests_cant": "All index contents.", "anchors": ["src/index_icrc7/src/update/get_blocks.rs: get_blocks_with_filters"]}
{"id": "C59", "title": "Paging through filtered blocks is complete", "statement": "Concatenating the pages start = 0, n, 2n, ... of a filtered ascending query gives every matching block exactly once, ascending.", "quantifier": "every index content and page length >= 1", "why_tests_cant": "All sizes and page lengths.", "anchors": ["src/index_icrc7/src/update/get_blocks.rs"]}
{"id": "C60", "title": "Unfiltered block queries return the requested range", "statement": "get_blocks without filters returns the ledger's blocks with ids in [start, start+length) in the requested order.", "quantifier": "every ledger, start, length and order", "why_tests_cant": "All ranges, both orders.", "anchors": ["src/index_icrc7/src/update/get_blocks.rs: get_blocks"]}
{"id": "C61", "title": "The block cache is transparent", "statement": "The blocks returned by the index canister are those the ledger and its archives hold, whatever the cache contains from earlier requests.", "quantifier": "every cache content filled by earlier requests, every request", "why_tests_cant": "All cache contents and request histories.", "anchors": ["src/index_icrc7/src/blocks.rs: get_all_blocks", "src/index_icrc7/src/cache.rs"]}
{"id": "C62", "title": "Requests to the ledger cover exactly the missing blocks", "statement": "Grouping sorted ids into runs loses none, adds none, keeps the order, makes every run consecutive and is as coarse as possible.", "quantifier": "every sorted list of ids", "why_tests_cant": "All lists.", "anchors": ["src/index_icrc7/src/blocks.rs: group_consecutive_block_ids"]}
{"id": "C63", "title": "Cached blocks are evicted by the clean-up job", "statement": "After the daily clean-up no cache entry older than the clean-up time remains.", "quantifier": "every cache content and time", "why_tests_cant": "All cache contents.", "anchors": ["src/index_icrc7/src/cache.rs: remove_all_values_older_than", "src/index_icrc7/src/jobs.rs: cleanup_cache"]}
{"id": "C64", "title": "Block type names round-trip", "statement": "Parsing the printed name of a block type gives the type back, parsing is insensitive to case, and two types never share a name.", "quantifier": "every block type and every text", "why_tests_cant": "All texts on the parsing side.", "anchors": ["src/index_icrc7/src/blocks.rs: BlockType"]}
{"id": "C65", "title": "Every ledger block can be indexed", "statement": "Every block the NFT canister logs has a type the index understands and is listed under its type, under its token id if it concerns a token, and under every account it names.", "quantifier": "every transaction the NFT canister can log", "why_tests_cant": "A cross-canister agreement over all transactions.", "anchors": ["src/index_icrc7/src/blocks.rs", "src/index_icrc7/src/index.rs", "src/core_nft/src/updates/icrc7.rs", "src/core_nft/src/updates/icrc37.rs", "src/core_nft/src/updates/management.rs"]}
{"id": "C66", "title": "The command line uploads the whole file in order", "statement": "The chunks sent by upload_file, in order of their ids 0,1,2,..., concatenate to the file, every chunk has at most chunk_size bytes and all but the last exactly that many.", "quantifier": "every file, chunk size >= 1 and every behaviour of the operating system's read calls", "why_tests_cant": "All file lengths and short reads.", "anchors": ["cmdline/src/calls/uploads.rs: upload_file"]}
{"id": "C67", "title": "Permission names are understood in every spelling", "statement": "Each permission label printed by the tool is parsed back to that permission, in any letter case, and different permissions never share a spelling.", "quantifier": "every text", "why_tests_cant": "All texts.", "anchors": ["cmdline/src/calls/permissions.rs: parse_permission_from_str", "cmdline/src/commands.rs: handle_permissions"]}
{"id": "C68", "title": "Metadata given on the command line arrives unchanged", "statement": "For an argument key:value the minted metadata hold that key with the value after the first colon.", "quantifier": "every argument text", "why_tests_cant": "All texts, in particular values containing colons.", "anchors": ["cmdline/src/commands.rs: handle_mint"]}
{"id": "C69", "title": "Created storage canisters are never lost", "statement": "Every storage canister created by the NFT canister is in its list of storage canisters from then on.", "quantifier": "every history and every behaviour of the storage canisters", "why_tests_cant": "Failure after creation needs a particular interleaving with another canister's refusal.", "anchors": ["src/core_nft/src/updates/management.rs: init_upload", "src/core_nft/src/types/sub_canister.rs: init_upload"]}
{"id": "C70", "title": "Consent messages describe the call", "statement": "A consent message is produced exactly for the six supported methods with decodable arguments; it names the operation and, for a batch of more than one, the number of items; it never traps.", "quantifier": "every method name and argument", "why_tests_cant": "All argument lists, including empty ones.", "anchors": ["src/core_nft/src/queries/icrc21.rs"]}
{"id": "C71", "title": "Paging through uploads is complete", "statement": "While the uploads do not change, reading get_all_uploads page by page with a fixed page size shows every upload exactly once.", "quantifier": "every set of uploads, iteration order and page size >= 1", "why_tests_cant": "All maps, orders and page sizes.", "anchors": ["src/core_nft/src/updates/management.rs: get_all_uploads"]}
{"id": "C72", "title": "Collection metadata agree with the getters", "statement": "icrc7_collection_metadata lists each setting once, with the value its getter answers, and omits unset ones.", "quantifier": "every state", "why_tests_cant": "All combinations of set and unset settings.", "anchors": ["src/core_nft/src/queries/icrc7.rs: icrc7_collection_metadata"]}
{"id": "C73", "title": "Administrative reads are private", "statement": "The permission, storage canister and upload queries answer only to holders of the respective permission, and then exactly the stored data.", "quantifier": "every caller and state", "why_tests_cant": "All callers.", "anchors": ["src/core_nft/src/updates/management.rs: has_permission, get_user_permissions, get_all_storage_subcanisters, get_upload_status, get_all_uploads", "src/core_nft/src/guards.rs"]}
{"id": "C74", "title": "Only announced block types are logged", "statement": "Every block ever logged has one of the types announced in icrc3_supported_block_types.", "quantifier": "every history", "why_tests_cant": "All histories.", "anchors": ["src/core_nft/src/lifecycle/init.rs", "src/core_nft/src/updates/icrc7.rs", "src/core_nft/src/updates/icrc37.rs", "src/core_nft/src/updates/management.rs"]}
{"id": "C75", "title": "The upload tool stops at the first refusal", "statement": "If the canister refuses one of the calls of an upload, or a call is not delivered, the tool sends no further call and reports an error; it reports success only if the final call was accepted.", "quantifier": "every file, chunk size, read behaviour and sequence of replies", "why_tests_cant": "All reply sequences.", "anchors": ["cmdline/src/calls/uploads.rs: init, store, finalize, upload_file"]}
{"id": "C76", "title": "Validation of token metadata files", "statement": "The tool's validator accepts exactly the JSON documents that are objects whose name, description, image and external_url (if present) are texts and whose attributes (if present) are a list of objects with a text trait_type, a value and, if present, a text display_type; every document the tool creates passes.", "quantifier": "every JSON document and every input of create-metadata", "why_tests_cant": "Infinitely many documents.", "anchors": ["cmdline/src/metadata.rs: validate_icrc97_metadata, create_icrc97_metadata", "cmdline/src/commands.rs: handle_create_metadata"]}
{"id": "C77", "title": "Attributes given on the command line arrive unchanged", "statement": "An argument trait:value[:display] yields one attribute with that trait, that display type and the value as number or text.", "quantifier": "every argument and every behaviour of the float parser", "why_tests_cant": "All texts.", "anchors": ["cmdline/src/commands.rs: handle_create_metadata"]}
{"id": "C78", "title": "The mint command names the intended account", "statement": "A mint request is sent exactly if the owner is the text of a principal and the subaccount, if given, is the hexadecimal text (any letter case) of 32 bytes; it carries that account, the memo's bytes and the given metadata.", "quantifier": "every argument text", "why_tests_cant": "All texts.", "anchors": ["cmdline/src/commands.rs: handle_mint", "cmdline/src/calls/mint.rs: mint_nft"]}
{"id": "C79", "title": "Uploaded files are served by a certified redirection", "statement": "In every state an HTTP request for the path of a finalized upload is answered by a redirection to the storage canister that holds the file, under a witness that matches the certified data; a request for any other path is not answered; both also after upgrades.", "quantifier": "every path, every history with upgrades, every iteration order of the redirection map", "why_tests_cant": "All upload histories interleaved with upgrades.", "anchors": ["src/core_nft/src/queries/http_request.rs: http_request, serve_asset", "src/core_nft/src/types/http.rs: add_redirection", "src/core_nft/src/lifecycle/post_upgrade.rs"]}
{"id": "C80", "title": "Diagnostic pages are certified", "statement": "The pages /logs, /traces and /metrics are answered with a certificate for the path that was asked for, under the data certified last.", "quantifier": "every state", "why_tests_cant": "All histories with upgrades.", "anchors": ["src/core_nft/src/queries/http_request.rs: serve_logs, serve_metrics", "src/core_nft/src/types/http.rs: certify_all_assets", "src/core_nft/src/lifecycle/init.rs", "src/core_nft/src/lifecycle/post_upgrade.rs"]}
{"id": "C81", "title": "Approvals, revocations and delegated transfers are answered item by item", "statement": "The k-th answer of a batch of approvals, revocations or delegated transfers is the answer a call with that item alone gets in the state the preceding items left; every item is answered, of revocations the first max_revoke_approvals.", "quantifier": "every state, caller and batch", "why_tests_cant": "All batches over all states.", "anchors": ["src/core_nft/src/updates/icrc37.rs: icrc37_approve_tokens, icrc37_approve_collection, icrc37_revoke_token_approvals, icrc37_revoke_collection_approvals, icrc37_transfer_from"]}
{"id": "C82", "title": "Configured batch limits hold for every update call", "statement": "No update call processes more items than max_update_batch_size (revocations: max_revoke_approvals).", "quantifier": "every state, caller and batch", "why_tests_cant": "All batches over all configurations.", "anchors": ["src/core_nft/src/updates/icrc7.rs: icrc7_transfer", "src/core_nft/src/updates/icrc37.rs", "src/core_nft/src/updates/management.rs: mint"]}
{"id": "C83", "title": "The owner can move and burn a token", "statement": "The owner's transfer of a token succeeds and moves it, if the recipient is another account and not anonymous, memo and creation time are within the limits, fewer than five calls about the token passed in the last 60 ms and the log accepts the block; the owner's burn succeeds if no management call is in progress and the log accepts the block.", "quantifier": "every history of messages with non-decreasing times, every log behaviour", "why_tests_cant": "Liveness over all histories: no earlier message, whoever sent it, may leave the token stuck.", "anchors": ["src/core_nft/src/updates/icrc7.rs: icrc7_transfer, transfer_nft", "src/core_nft/src/updates/management.rs: burn_nft", "src/core_nft/src/guards.rs: guard_sliding_window"]}
{"id": "C84", "title": "Owners can approve and revoke, spenders can spend", "statement": "Approvals by an owner within the limits succeed and are stored; revocations succeed and leave no approval they concern; whoever may move a token (owner, token approval, collection approval, not expired) moves it with icrc37_transfer_from.", "quantifier": "every history of messages with non-decreasing times, every log behaviour", "why_tests_cant": "Liveness over all histories.", "anchors": ["src/core_nft/src/updates/icrc37.rs: approve_token, approve_collection, revoke_token_approvals, revoke_collection_approvals, transfer_from"]}
{"id": "C85", "title": "Permitted management calls succeed", "statement": "A minter's batch within the limits is minted to the given owners; a metadata update by a holder of the permission replaces the metadata; grants, revocations and settings take effect - whenever no other management call is in progress and the log accepts the blocks.", "quantifier": "every history of messages with non-decreasing times, every log behaviour", "why_tests_cant": "Liveness over all histories.", "anchors": ["src/core_nft/src/updates/management.rs: mint, update_nft_metadata, grant_permission, revoke_permission, update_collection_metadata"]}
{"id": "C86", "title": "Nobody else can keep an owner from using a token", "statement": "Calls of others about a token do not make the owner's call about it fail.", "quantifier": "every history", "why_tests_cant": "All interleavings of messages of strangers.", "anchors": ["src/core_nft/src/guards.rs: guard_sliding_window", "src/core_nft/src/updates/icrc7.rs: transfer_nft"]}
{"id": "C87", "title": "The log tells who is approved for a token", "statement": "Whoever reads the transaction log, applying approvals, revocations and delegated transfers in order, arrives at exactly the live token approvals; every stored approval is in the log with its giver, expiry, time and memo.", "quantifier": "every history, token, spender and time not before the last message", "why_tests_cant": "Equality of two views over all histories, with clean-ups of expired approvals in between.", "anchors": ["src/core_nft/src/updates/icrc37.rs: approve_token, revoke_token_approvals, transfer_from"]}
{"id": "C88", "title": "The log tells who is approved for a collection", "statement": "The same for approvals of a whole collection.", "quantifier": "every history, owner account, spender and time not before the last message", "why_tests_cant": "Equality of two views over all histories.", "anchors": ["src/core_nft/src/updates/icrc37.rs: approve_collection, revoke_collection_approvals, transfer_from"]}
{"id": "C89", "title": "Strangers change nothing", "statement": "Calls of a principal that holds no permission, owns no token, is approved for nothing and never approved anybody change nothing but the memory of the rate limiter, however many they are.", "quantifier": "every state, every number and kind of calls", "why_tests_cant": "Frame property over the whole state and all calls and histories.", "anchors": ["src/core_nft/src/updates/icrc7.rs", "src/core_nft/src/updates/icrc37.rs", "src/core_nft/src/updates/management.rs", "src/core_nft/src/guards.rs"]}
{"id": "C90", "title": "The log only grows, in the order of time", "statement": "A message appends blocks bearing its own time and never removes or alters one; the times of the blocks never decrease.", "quantifier": "every history with non-decreasing times", "why_tests_cant": "All histories.", "anchors": ["src/core_nft/src/updates/icrc7.rs: transfer_nft", "src/core_nft/src/updates/icrc37.rs", "src/core_nft/src/updates/management.rs: mint, burn_nft, update_nft_metadata"]}
{"id": "C91", "title": "Each success is logged once under the number answered", "statement": "A batch appends exactly one block per item answered with success, in order, under the number that was answered, describing that item; refused items append nothing; a mint appends one block per token in the order of ids; calls that do not change ownership, approvals or metadata append nothing.", "quantifier": "every state, caller, batch and log behaviour", "why_tests_cant": "Correspondence between answers and log over all batches.", "anchors": ["src/core_nft/src/updates/icrc7.rs: icrc7_transfer", "src/core_nft/src/updates/icrc37.rs", "src/core_nft/src/updates/management.rs: mint"]}
{"id": "C92", "title": "Refusals name the true reason", "statement": "Every error answered by an update call states a fact about the state the call found: unauthorized means not the owner and not approved, a missing token does not exist, an invalid recipient is anonymous or the owner itself, too old and in the future are so, an exceeded limit is exceeded, a storage error means that the log refused.", "quantifier": "every state, caller, argument and log behaviour, for clocks and windows that fit 64 bits", "why_tests_cant": "All combinations of reasons: a test shows one reason at a time, not that no other error hides it.", "anchors": ["src/core_nft/src/updates/icrc7.rs: transfer_nft", "src/core_nft/src/updates/icrc37.rs", "src/core_nft/src/updates/management.rs: mint, burn_nft, update_nft_metadata"]}
{"id": "C93", "title": "A repeated transfer is reported as a duplicate", "statement": "When the log knows a transfer already as block n, the caller is told that it is a duplicate of n, and nothing is executed again.", "quantifier": "every state, transfer and number n", "why_tests_cant": "Needs the behaviour of the external log in all its answers.", "anchors": ["src/core_nft/src/updates/icrc7.rs: transfer_nft", "src/core_nft/src/updates/icrc37.rs: transfer_from"]}
{"id": "C94", "title": "Installation and upgrade take only their own arguments", "statement": "An installation given upgrade arguments and an upgrade given installation arguments do nothing; the version and commit reported are those of the last accepted upgrade, and an upgrade changes nothing else.", "quantifier": "every installation argument and every history of messages and upgrades", "why_tests_cant": "All histories of upgrades, accepted and refused.", "anchors": ["src/core_nft/src/lifecycle/init.rs: init", "src/core_nft/src/lifecycle/post_upgrade.rs: post_upgrade"]}
{"id": "C95", "title": "Storage canisters obey the administrators of the collection", "statement": "A storage canister created now is told to obey the collection canister and exactly the present holders of ManageAuthorities.", "quantifier": "every installation and history of grants, revocations and upgrades", "why_tests_cant": "Consistency of a list taken once with a table that changes afterwards.", "anchors": ["src/core_nft/src/state.rs: Data::new", "src/core_nft/src/updates/management.rs: grant_permission, revoke_permission"]}
{"id": "C96", "title": "Storage canisters run the code of the present version", "statement": "A storage canister created after an upgrade of the collection gets the storage code and the version of that upgrade.", "quantifier": "every installation and history of upgrades", "why_tests_cant": "Depends on what survives an upgrade.", "anchors": ["src/core_nft/src/lifecycle/post_upgrade.rs: post_upgrade", "src/core_nft/src/state.rs: Data::new"]}
{"id": "C97", "title": "The log looks for duplicates as long as the ledger accepts a transfer", "statement": "The duplicate window of the transaction log equals the window in which the ledger accepts created_at_time.", "quantifier": "every installation argument and history", "why_tests_cant": "Two defaults and two units in different places, over all settings.", "anchors": ["src/core_nft/src/lifecycle/init.rs: init", "src/core_nft/src/utils.rs", "src/core_nft/src/updates/icrc7.rs: transfer_nft"]}
{"id": "C98", "title": "HTTP shows no more than the guarded reads", "statement": "What a read call refuses to a caller without permission is not published to anybody by HTTP.", "quantifier": "every reachable state and path", "why_tests_cant": "Information flow: all states, two interfaces.", "anchors": ["src/core_nft/src/queries/http_request.rs", "src/core_nft/src/state.rs: metrics", "src/core_nft/src/updates/management.rs: get_user_permissions"]}
{"id": "C99", "title": "Stable memories do not overlap", "statement": "No two users of stable memory share a memory region, in the collection canister and in the index.", "quantifier": "all pairs of regions", "why_tests_cant": "A clash shows only when both users have written enough.", "anchors": ["src/core_nft/src/memory.rs", "src/index_icrc7/src/memory.rs"]}
{"id": "C100", "title": "An index serves one ledger for ever", "statement": "The ledger an index was installed for, its authorized principals and its mode are never changed by an upgrade; arguments of the wrong kind are refused.", "quantifier": "every installation argument and every sequence of upgrades", "why_tests_cant": "All sequences of upgrades.", "anchors": ["src/index_icrc7/src/lifecycle/init.rs: init", "src/index_icrc7/src/lifecycle/post_upgrade.rs: post_upgrade"]}
{"id": "C101", "title": "A message changes only the tokens it names", "statement": "Owner, approvals and metadata of a token stay as they are under every message that does not name it, whoever sends it and whatever it does; only a mint brings a token into being.", "quantifier": "every reachable state, message and history", "why_tests_cant": "Frame property over all messages and histories.", "anchors": ["src/core_nft/src/updates/icrc7.rs", "src/core_nft/src/updates/icrc37.rs", "src/core_nft/src/updates/management.rs"]}
{"id": "C102", "title": "A collection keeps an administrator", "statement": "Once somebody can manage permissions, there is always somebody who can.", "quantifier": "every history", "why_tests_cant": "Needs the whole permission table over all histories.", "anchors": ["src/core_nft/src/updates/management.rs: revoke_permission"]}
{"id": "C103", "title": "The anonymous principal owns nothing", "statement": "No token ever belongs to an account of the anonymous principal.", "quantifier": "every history", "why_tests_cant": "All ways by which a token gets an owner.", "anchors": ["src/core_nft/src/updates/management.rs: mint", "src/core_nft/src/updates/icrc37.rs: transfer_from", "src/core_nft/src/updates/icrc7.rs: transfer_nft"]}
{"id": "C104", "title": "The rate limiter needs bounded memory", "statement": "The memory of the rate limiter is bounded by the number of tokens, whatever callers send.", "quantifier": "every history", "why_tests_cant": "Growth over arbitrarily long histories of refused calls.", "anchors": ["src/core_nft/src/guards.rs: guard_sliding_window"]}
{"id": "C105", "title": "Whoever may upload can complete an upload, and the file is served", "statement": "When no management call is in progress and storage accepts the data, whoever holds UpdateUploads can take a new file of at most 2 GiB through init, any number of chunks and finalize, whatever calls arrive while each of them waits for storage and whatever token calls arrive in between; the file is then finalized and its path is served by a certified redirection to the storage canister that took it, unless the path is a reserved name.", "quantifier": "every history leading to the upload, every number of chunks, every interleaving of other calls with the waiting upload calls", "why_tests_cant": "Progress under all interleavings of asynchronous calls.", "anchors": ["src/core_nft/src/updates/management.rs: init_upload, store_chunk, finalize_upload", "src/core_nft/src/queries/http_request.rs"]}
{"id": "C106", "title": "The index catches up with its ledger", "statement": "Rounds of the index that complete one after another index 100 blocks each until all are indexed, whatever calls arrive in between; with a ledger that answers honestly and writes only known block types, an index left to itself reaches every height of the ledger and lists every block below it under everything the block is about.", "quantifier": "every ledger, every history of the index without overlapping rounds, every height", "why_tests_cant": "A liveness statement about unbounded runs against an arbitrary ledger.", "anchors": ["src/index_icrc7/src/jobs.rs: update_index", "src/index_icrc7/src/index.rs: add_block_to_index", "src/index_icrc7/src/blocks.rs"]}
{"id": "C107", "title": "A transfer takes a token only from the account it names", "statement": "A successful icrc7_transfer moves a token only if the account made of the caller and the from_subaccount of the argument owns it.", "quantifier": "every reachable state, caller and batch of transfers", "why_tests_cant": "All states and all combinations of owners and named subaccounts.", "anchors": ["src/core_nft/src/updates/icrc7.rs: transfer_nft", "src/core_nft/src/types/icrc7.rs: TransferArg"]}
{"id": "C108", "title": "The reported memo limit holds for every block", "statement": "No call logs a memo longer than the limit reported by icrc7_max_memo_size.", "quantifier": "every state, call and memo", "why_tests_cant": "All calls that carry a memo, for all settings.", "anchors": ["src/core_nft/src/updates/icrc37.rs", "src/core_nft/src/updates/icrc7.rs: transfer_nft", "src/core_nft/src/updates/management.rs: mint"]}
{"id": "C109", "title": "An approval that has already expired is refused", "statement": "An approval whose expiry lies before the time of the call is not accepted.", "quantifier": "every state, caller and approval", "why_tests_cant": "All states, times and approvals; also what such an approval does afterwards.", "anchors": ["src/core_nft/src/updates/icrc37.rs: approve_token"]}
{"id": "C110", "title": "Who gives a token away cannot take it back", "statement": "After a successful icrc7_transfer to another principal, no message of the sender moves the token.", "quantifier": "every reachable state and every later message of the sender", "why_tests_cant": "All approvals that may exist before the transfer and all messages after it.", "anchors": ["src/core_nft/src/updates/icrc7.rs: transfer_nft", "src/core_nft/src/updates/icrc37.rs: approve_token, transfer_from"]}
{"id": "C111", "title": "An owner can renew the approval of a listed spender", "statement": "Approving a spender who already has an approval on the token replaces that approval, also when the number of approvals is at its limit.", "quantifier": "every reachable state, owner and spender", "why_tests_cant": "Boundary of a configured limit in all states.", "anchors": ["src/core_nft/src/updates/icrc37.rs: approve_token"]}
{"id": "C112", "title": "A burned token leaves nothing behind", "statement": "After a token is burned no query shows anything about it, ever again.", "quantifier": "every reachable state and all later histories", "why_tests_cant": "Unbounded histories after the burn.", "anchors": ["src/core_nft/src/updates/management.rs: burn_nft", "src/core_nft/src/queries/icrc7.rs", "src/core_nft/src/queries/icrc37.rs"]}
{"id": "C113", "title": "Calls of the token standards never trap", "statement": "icrc7_transfer and the five update calls of ICRC-37 answer every batch with a result, whatever the settings.", "quantifier": "every state, caller, batch and setting", "why_tests_cant": "All arguments and settings including out-of-range ones.", "anchors": ["src/core_nft/src/updates/icrc7.rs", "src/core_nft/src/updates/icrc37.rs: icrc37_revoke_token_approvals"]}
{"id": "C114", "title": "Nobody can keep others from collection approvals", "statement": "Calls of one account do not make another account's approval or revocation for its collection fail.", "quantifier": "every history", "why_tests_cant": "Interference between callers over all histories and times.", "anchors": ["src/core_nft/src/guards.rs: guard_sliding_window", "src/core_nft/src/updates/icrc37.rs: approve_collection, revoke_collection_approvals"]}
{"id": "C115", "title": "Paging through approvals continues where it stopped", "statement": "A page that names the last spender of the previous page starts behind that spender, also if the approval was revoked in between.", "quantifier": "every reachable state, iteration order and page size", "why_tests_cant": "All interleavings of paging with revocations and all hash map orders.", "anchors": ["src/core_nft/src/queries/icrc37.rs: icrc37_get_token_approvals"]}
{"id": "C116", "title": "A revocation succeeds only if there was an approval", "statement": "A revocation that names a spender without an approval is answered ApprovalDoesNotExist and logs nothing; the answer is given only then.", "quantifier": "every reachable state, owner and spender", "why_tests_cant": "All contents of the approval maps.", "anchors": ["src/core_nft/src/updates/icrc37.rs: revoke_token_approvals, revoke_collection_approvals"]}
{"id": "C117", "title": "The supply never exceeds the reported cap", "statement": "At every time icrc7_total_supply is at most the reported icrc7_supply_cap (10000 if none).", "quantifier": "every history", "why_tests_cant": "Histories that mix minting, burning and changes of the settings.", "anchors": ["src/core_nft/src/updates/management.rs: mint, update_collection_metadata"]}
{"id": "C118", "title": "What installation refuses, updates refuse", "statement": "A value that the installation refuses for a setting cannot be set by update_collection_metadata.", "quantifier": "every history, all settings", "why_tests_cant": "All histories of settings.", "anchors": ["src/core_nft/src/lifecycle/init.rs: init", "src/core_nft/src/updates/management.rs: update_collection_metadata"]}
{"id": "C119", "title": "The interactive mode enters what was typed", "statement": "Every entry typed into the interactive metadata dialogue of the mint command arrives with its key and value, in order.", "quantifier": "all sequences of input lines", "why_tests_cant": "All dialogues, of any length, with all kinds of mistyped answers in between.", "anchors": ["cmdline/src/metadata.rs: create_metadata_interactive_hashmap", "cmdline/src/prompts.rs"]}
{"id": "C120", "title": "The interactive mode ends", "statement": "The dialogue ends with entries or an error for every finite input.", "quantifier": "all finite sequences of input lines", "why_tests_cant": "Divergence cannot be observed by a test; all inputs.", "anchors": ["cmdline/src/prompts.rs: prompt_bool", "cmdline/src/metadata.rs: create_metadata_interactive_hashmap"]}
{"id": "C121", "title": "The document created interactively says what was typed", "statement": "The interactive metadata command produces a document with exactly the typed name, description, image, link and attributes, and it passes validation.", "quantifier": "all sequences of input lines and all number parsers", "why_tests_cant": "All dialogues of any length, all attribute values.", "anchors": ["cmdline/src/metadata.rs: create_metadata_interactive, create_icrc97_metadata", "cmdline/src/prompts.rs: prompt_display_type"]}
{"id": "C122", "title": "Binary values are entered exactly", "statement": "A text is accepted as a binary value exactly if it is the base64 text of some bytes, and these bytes are stored.", "quantifier": "all texts and all byte strings", "why_tests_cant": "All byte strings of any length, including wrong padding and non-zero trailing bits.", "anchors": ["cmdline/src/metadata.rs: create_metadata_interactive_hashmap"]}
{"id": "C123", "title": "The mint command mints what it says", "statement": "If the mint command prints an id, a new token of this id belongs to the account named and carries the metadata and name asked for; if it prints none, nothing was minted.", "quantifier": "all arguments, input lines and reachable states", "why_tests_cant": "All argument texts against all states of the canister.", "anchors": ["cmdline/src/commands.rs: handle_mint", "cmdline/src/calls/mint.rs", "src/core_nft/src/updates/management.rs: mint"]}
{"id": "C124", "title": "The permission commands do what they print", "statement": "Granting and revoking by text change exactly the permission of the principal named; has and list print the permissions held, each once.", "quantifier": "all texts and reachable states", "why_tests_cant": "All spellings, all permission tables.", "anchors": ["cmdline/src/commands.rs: handle_permissions", "cmdline/src/calls/permissions.rs", "src/core_nft/src/types/permissions.rs", "src/core_nft/src/updates/management.rs: grant_permission, revoke_permission"]}
{"id": "C125", "title": "The upload command uploads the file", "statement": "If the upload command reports success, the file's bytes, and no others, can be had at the path for ever; with the permission, a free path and willing storage every file can be uploaded.", "quantifier": "all files, chunk sizes and reachable states, all messages of other users before and between the calls, all replies of storage canisters that check the announced hash", "why_tests_cant": "All interleavings of the tool's calls with those of other uploaders, across three kinds of programs.", "anchors": ["cmdline/src/calls/uploads.rs: upload_file", "cmdline/src/commands.rs: handle_upload_file", "src/core_nft/src/updates/management.rs: init_upload, store_chunk, finalize_upload"]}
{"id": "C126", "title": "A token minted with the URL of its document leads to the document", "statement": "After upload-metadata and mint with the printed URL, the token belongs to the account named, carries the URL, and the URL leads to the document, which is valid metadata; different documents have different URLs, and the command can be repeated.", "quantifier": "all documents, arguments, reachable states, and all messages of others before, between and after the two commands", "why_tests_cant": "All histories between the two commands and all documents; needs the tool, the ledger, the certified HTTP side and the storage together.", "anchors": ["cmdline/src/commands.rs: handle_upload_metadata, handle_mint", "src/core_nft/src/updates/management.rs: finalize_upload", "src/core_nft/src/queries/http_request.rs: http_request"]}
{"id": "C127", "title": "What happens to a token depends only on that token", "statement": "The outcome of a transfer, approval, revocation or delegated transfer of one token, and all that is kept for it afterwards, depends only on the settings and on what is kept for this token (and, for a delegated transfer, on its owner's collection approvals).", "quantifier": "all items, callers, times, and any two states that agree on the token, reachable or not", "why_tests_cant": "A non-interference statement about two arbitrary states at once.", "anchors": ["src/core_nft/src/updates/icrc7.rs: transfer_nft", "src/core_nft/src/updates/icrc37.rs: approve_token, revoke_token_approvals, transfer_from", "src/core_nft/src/utils.rs"]}
{"id": "C128", "title": "The order of calls about different tokens does not matter", "statement": "Calls about different tokens, by whomever, have the same outcome and leave the same owners, approvals and metadata in whatever order they arrive; so do the items of one batch.", "quantifier": "all reachable states, all sequences of any length and all their permutations", "why_tests_cant": "All permutations of sequences of arbitrary length in all states.", "anchors": ["src/core_nft/src/updates/icrc7.rs: icrc7_transfer, transfer_nft", "src/core_nft/src/updates/icrc37.rs: icrc37_approve_tokens, icrc37_revoke_token_approvals, icrc37_transfer_from"]}
{"id": "C129", "title": "The calls and their answers determine the ledger", "statement": "Somebody who sees every call with its answer, and nothing else, knows the owner of every token, every approval that has not expired, all metadata, the next token id and all permissions: every answer tells whether and how the call was carried out.", "quantifier": "all installations and all histories of calls of every kind, with any errors, traps and lost replies", "why_tests_cant": "A statement about all histories: no unit test compares every answer with every part of the state.", "anchors": ["src/core_nft/src/updates/icrc7.rs: icrc7_transfer", "src/core_nft/src/updates/icrc37.rs", "src/core_nft/src/updates/management.rs", "src/core_nft/src/types/nft.rs", "src/core_nft/src/types/permissions.rs"]}
{"id": "C130", "title": "Ledger and storage canisters agree about uploads", "statement": "Whenever no upload call is waiting, a file is at the storage canister its record names, in the state its record gives, and at no other storage canister: the upload records of the ledger describe what is stored.", "quantifier": "all sequences of messages, requests, failed and repeated attempts, lost replies, trapping continuations, upgrades and garbage collections, for every storage canister that obeys its interface", "why_tests_cant": "The disagreement needs two canisters and a failure between them; the integration tests lose no reply and never stop a call half way.", "anchors": ["src/core_nft/src/updates/management.rs: init_upload, store_chunk, finalize_upload, cancel_upload", "src/core_nft/src/types/sub_canister.rs", "src/core_nft/src/jobs/upload_garbage_collector.rs"]}
{"id": "C131", "title": "An upload that went wrong can be cleared", "statement": "An unfinished upload can always be cancelled by somebody with the permission, after which the path can be used again.", "quantifier": "all states and all sequences of events after a failure", "why_tests_cant": "That a path stays blocked is a statement about everything that may follow.", "anchors": ["src/core_nft/src/updates/management.rs: cancel_upload, init_upload", "src/core_nft/src/types/sub_canister.rs", "src/core_nft/src/jobs/upload_garbage_collector.rs"]}
{"id": "C132", "title": "Upload calls answer what the storage canister replied", "statement": "An upload call succeeds exactly when the storage canister's reply is a success, reports the error of the storage canister under the same name where there is one, and sends nothing to a canister that is not installed.", "quantifier": "all states, storage canisters, replies and outcomes of the attempts", "why_tests_cant": "The mapping of errors is hidden behind three repetitions and two canisters; the tests see one error of each call at most.", "anchors": ["src/core_nft/src/types/management.rs: from_storage_response", "src/core_nft/src/types/sub_canister.rs: StorageCanister", "src/core_nft/src/updates/management.rs"]}
{"id": "C133", "title": "What is kept in stable memory reads back as it was", "statement": "After any history of messages, the metadata and the approvals of every token and collection are exactly what their keys and bytes in stable memory decode to: no stored entry is ever unreadable or read as something else.", "quantifier": "all installations, all histories of well-typed messages, all tokens, keys, nested values and enumeration orders of the hash maps", "why_tests_cant": "The encoders are tested on ten values; that every value that can reach them is one they can write and read is an invariant of the whole ledger.", "anchors": ["src/core_nft/src/types/wrapped_types.rs", "src/core_nft/src/types/value_custom.rs", "src/core_nft/src/types/metadata.rs", "src/core_nft/src/types/icrc37.rs", "src/core_nft/src/updates/icrc37.rs", "src/core_nft/src/updates/management.rs"]}
{"id": "C134", "title": "Minting in one call or in several comes to the same", "statement": "A successful mint of several tokens does exactly what successive mints of any pieces of its list would do: the same ids, owners, metadata and blocks. Conversely two successful mints in a row could have been one, if the batch limit admits their tokens together.", "quantifier": "all reachable states, all lists of requests, all ways of cutting them", "why_tests_cant": "Tests mint a few fixed batches; that no batch of any size differs from its pieces is a law over all cuts.", "anchors": ["src/core_nft/src/updates/management.rs"]}
{"id": "C135", "title": "The tool accepts the documents it created", "statement": "After create-metadata has ended well, the file it names exists, validate-metadata on it ends well, and upload-metadata on it announces it to the canister.", "quantifier": "all invocations, typed lines, files and outside worlds in which serde_json reads back what it printed up to rounding of numbers", "why_tests_cant": "A test creates a few documents; that none that can be created is turned away later is a statement about all arguments and dialogues.", "anchors": ["cmdline/src/main.rs", "cmdline/src/commands.rs", "cmdline/src/metadata.rs"]}
{"id": "C136", "title": "Each command of the tool touches only what it is about", "statement": "Only uploads, mint, grant and revoke send calls that change the ledger; only create-metadata writes a file, the one it was told to; on the IC the root key is never fetched; validating and creating documents does not depend on the network.", "quantifier": "all invocations, typed lines, files and outside worlds", "why_tests_cant": "Absence of an effect cannot be tested for all arguments and answers of the network.", "anchors": ["cmdline/src/main.rs", "cmdline/src/commands.rs", "cmdline/src/utils.rs", "cmdline/src/cli.rs"]}
{"id": "C137", "title": "The index tells the owner of a token", "statement": "Once the index has taken in the whole log, the last block it lists under a token that makes, moves or destroys the token names the present owner in its 'to' field, or is a burn if there is no owner.", "quantifier": "all reachable ledgers, all tokens ever made, all histories of an index reading that ledger", "why_tests_cant": "Joins two canisters over arbitrary histories; a test reads back a few transfers.", "anchors": ["src/index_icrc7/src/blocks.rs", "src/index_icrc7/src/index.rs", "src/core_nft/src/updates/icrc7.rs", "src/core_nft/src/updates/icrc37.rs", "src/core_nft/src/updates/management.rs"]}
{"id": "C138", "title": "What the index keeps in stable memory reads back as it was", "statement": "Every key and list of blocks of the index and every cached block, as the canister sees them, are what the bytes written for them in stable memory decode to, with nothing left over.", "quantifier": "all histories of timers, requests, upgrades and replies, honest or not, whose texts are UTF-8 and whose numbers have the width of the interface", "why_tests_cant": "All contents of all histories: the round-trip tests of the code encode a handful of values.", "anchors": ["src/index_icrc7/src/index.rs", "src/index_icrc7/src/cache.rs", "src/index_icrc7/src/wrapped_values.rs", "src/index_icrc7/src/blocks.rs", "src/index_icrc7/src/jobs.rs"]}
{"id": "C139", "title": "A consent message tells what is signed", "statement": "Two calls with the same consent message change the ownership of tokens alike: the text tells which token goes to whom.", "quantifier": "all requests for consent, decoders, callers, states", "why_tests_cant": "Needs a comparison of the texts of all pairs of calls; a test looks at one text.", "anchors": ["src/core_nft/src/queries/icrc21.rs"]}
{"id": "C140", "title": "Whatever disposes of a token has a consent message", "statement": "For every call through which a token leaves its owner or an approval changes, a consent message can be had.", "quantifier": "all calls, arguments, callers, reachable states", "why_tests_cant": "All calls in all states: which calls can dispose of a token is itself a statement about every function.", "anchors": ["src/core_nft/src/queries/icrc21.rs", "src/core_nft/src/updates/management.rs", "src/core_nft/src/updates/icrc7.rs", "src/core_nft/src/updates/icrc37.rs"]}
{"id": "C141", "title": "Every HTTP answer carries the protection headers", "statement": "Whatever path is asked for, an answer has every header name once, all protections (no framing, no sniffing, no caching, encrypted only, no camera, ...), a type that is not run, and status 200 for the three reserved pages or 307 with the recorded target for a redirection.", "quantifier": "all paths, all histories with upgrades", "why_tests_cant": "All paths and states; the HTTP tests fetch a few files.", "anchors": ["src/core_nft/src/types/http.rs", "src/core_nft/src/queries/http_request.rs"]}
{"id": "C142", "title": "An interrupted upload is completed by repeating the command", "statement": "When the upload command stopped half-way, for whatever reason, the upload is unfinished or finished with this file unless somebody cancels it; starting the command again with the same file completes it although its announcement is now refused, and if the command reports success the file, and no other, is had at the path.", "quantifier": "all files, chunk sizes, points of interruption and messages of others short of cancellation, with storage canisters that take chunks again and check the hash", "why_tests_cant": "The states an interrupted command leaves are many, and the tests of the tool upload without interruption.", "anchors": ["cmdline/src/calls/uploads.rs", "src/core_nft/src/updates/management.rs"]}
{"id": "C143", "title": "The tool reports success exactly when it was granted what it asked for", "statement": "The command-line tool exits with success only if every request it sent was granted, and it does so whenever the last call of its command was granted.", "quantifier": "all invocations, files and lines typed, and all behaviours of network, canister and operating system", "why_tests_cant": "A test runs against a canister that answers in one way; scripts rely on the exit status under all of them.", "anchors": ["cmdline/src/main.rs", "cmdline/src/commands.rs", "cmdline/src/calls/uploads.rs", "cmdline/src/calls/mint.rs", "cmdline/src/calls/permissions.rs"]}
{"id": "C144", "title": "The rate limiter says when the next call is possible", "statement": "A caller refused by the rate limiter is told a time. Once that time is over the next call about the same token is not refused by the limiter, and before that no call about it succeeds.", "quantifier": "every history with non-decreasing times, every token, every pair of calls about it by any callers", "why_tests_cant": "The number told depends on the whole recent history; a test checks that there is some text.", "anchors": ["src/core_nft/src/guards.rs: guard_sliding_window"]}
{"id": "C145", "title": "Reading the tokens page by page misses none that stays", "statement": "A client reads icrc7_tokens or icrc7_tokens_of page by page while minting, burning and transfers go on between the pages. The reading ends, lists ids in ascending order without repetition, contains every token that existed (was owned by the account) all the time, and contains only tokens that existed (were owned by it) when one of the pages was read.", "quantifier": "all sequences of reachable states between the pages, page sizes from 1 within the limit, ids below any bound", "why_tests_cant": "A test reads a collection that stands still; the claim is about all interleavings with all changes.", "anchors": ["src/core_nft/src/queries/icrc7.rs: icrc7_tokens, icrc7_tokens_of"]}
{"id": "C146", "title": "Reading the index page by page misses nothing while it grows", "statement": "A client asks the index canister for the pages 0, n, 2n, ... of the blocks of an account, token or type while new blocks are indexed between the pages. Read together the full pages are an initial part of the blocks asked for, each once and in order; when a page is short, all blocks that were indexed when it was asked for have been read.", "quantifier": "all ledgers, histories of the index at each page, filters and page sizes", "why_tests_cant": "All interleavings of reading with indexing.", "anchors": ["src/index_icrc7/src/index.rs", "src/index_icrc7/src/update/get_blocks.rs", "src/index_icrc7/src/jobs.rs"]}
{"id": "C147", "title": "Reading the uploads page by page misses none that stays", "statement": "Reading get_all_uploads page by page shows every upload that is there all the time, while others come and go.", "quantifier": "all orders of iteration, page sizes and interleavings", "why_tests_cant": "The pages are positions in a hash map; a test sees one order and a map that stands still.", "anchors": ["src/core_nft/src/updates/management.rs: get_all_uploads"]}
{"id": "C148", "title": "Each permission gives power over its own part only", "statement": "A message changes the settings, the permissions, the set of tokens and the next id, the metadata of a token, or the uploads, redirections and storage canisters only if it is a call of the kind that needs UpdateCollectionMetadata, ManageAuthorities, Minting, UpdateMetadata or UpdateUploads respectively and its sender holds that permission, or, for uploads, if it is the reply to a call whose sender holds UpdateUploads still. Over any history: as long as nobody with the permission makes a call of its kind, its part stays as it was.", "quantifier": "all reachable states, messages, callers and histories", "why_tests_cant": "Tests try a few callers on a few calls; the claim is that no call by anybody reaches a part it has no permission for.", "anchors": ["src/core_nft/src/updates/management.rs", "src/core_nft/src/guards.rs", "src/core_nft/src/types/permissions.rs", "src/core_nft/src/updates/icrc7.rs", "src/core_nft/src/updates/icrc37.rs"]}
{"id": "C149", "title": "The administrators' work on permissions and uploads cannot be seen by others", "statement": "Two ledgers that differ only in permissions, uploads, storage canisters, redirections, lock and waiting calls answer every other call and every unguarded read the same. So in any history the granting, revoking and uploading can be left out without changing the public part of the ledger or the answer of any other call; and a caller without permissions is told the same whatever they call.", "quantifier": "all pairs of states, histories and callers", "why_tests_cant": "A property of pairs of executions: a test compares answers with expectations, not with those of all ledgers that differ in what is not to be seen.", "anchors": ["src/core_nft/src/guards.rs", "src/core_nft/src/updates/management.rs", "src/core_nft/src/updates/icrc7.rs", "src/core_nft/src/updates/icrc37.rs", "src/core_nft/src/queries/icrc7.rs", "src/core_nft/src/queries/icrc37.rs"]}
{"id": "C150", "title": "Repeating a call whose answer was lost does nothing a second time", "statement": "If a call is sent again because its answer was lost, then of the two executions at most one changes any owner, approval, permission, item of metadata, setting or upload: what the first changed the second leaves as it is, whatever the clock, the rate limiter and the log say to either. Announcing, finishing and cancelling an upload again after the answer changes nothing, storing a chunk again leaves the same record. (Minting is not like this: it mints again.)", "quantifier": "all reachable states, calls, pairs of times and of answers of the log", "why_tests_cant": "Clients repeat calls on a time-out; a test would have to repeat every call in every state, with the rate limiter and the log deciding differently each time.", "anchors": ["src/core_nft/src/updates/icrc7.rs", "src/core_nft/src/updates/icrc37.rs", "src/core_nft/src/updates/management.rs"]}
{"id": "C151", "title": "The program knows nobody by name", "statement": "If all principals but the anonymous one are given other names, in the installation arguments, in the ledger and in the calls, then every call leaves the renamed ledger and gets the same answer, and every read gives the renamed answer. So nobody has a power that installation and grants did not give: there is no built-in administrator and no name that is treated differently.", "quantifier": "all states, histories, messages and all bijections of principals that fix the anonymous one", "why_tests_cant": "A back door for one principal is invisible to every test that does not use that principal; the claim compares executions under all renamings.", "anchors": ["src/core_nft/src/guards.rs", "src/core_nft/src/lifecycle/init.rs", "src/core_nft/src/updates/icrc7.rs", "src/core_nft/src/updates/icrc37.rs", "src/core_nft/src/updates/management.rs", "src/core_nft/src/queries/icrc7.rs", "src/core_nft/src/queries/icrc37.rs"]}
{"id": "C152", "title": "Only lengths of time count", "statement": "If every time is moved by the same amount - the clock, the times callers give, the times in the ledger, in the blocks and in the history of the rate limiter - then every call leaves the same ledger with its times moved and gets the same answer but for the ledger time in it, and every read gives the same. The ledger starts without any time in it. So there is no built-in date after which the program behaves differently, as long as the clock and the time settings added to it fit 64 bits.", "quantifier": "all states, histories and messages, all shifts of the clock that keep it and the time settings within 64 bits", "why_tests_cant": "A test runs on one date; that the behaviour does not depend on the date compares executions at all dates.", "anchors": ["src/core_nft/src/updates/icrc7.rs", "src/core_nft/src/updates/icrc37.rs", "src/core_nft/src/guards.rs", "src/core_nft/src/updates/management.rs", "src/core_nft/src/queries/icrc37.rs", "src/core_nft/src/jobs/upload_garbage_collector.rs"]}
{"id": "C153", "title": "The default subaccount may be written in either way", "statement": "An account without a subaccount and the account with 32 zero bytes are the same account. Two histories that differ only in which of the two ways accounts are written get the same answers, message by message, and leave ledgers that differ only in that way, and what is read of them is the same up to that difference. The one exception is icrc37_is_approved, which compares the subaccounts of collection approvals literally: an account that approved itself for the collection gets different answers for the two ways.", "quantifier": "all states, histories and messages, all ways of writing the accounts in them", "why_tests_cant": "A test writes its accounts in one way; that the other way never matters compares pairs of histories of any length.", "anchors": ["src/core_nft/src/updates/icrc7.rs", "src/core_nft/src/updates/icrc37.rs", "src/core_nft/src/updates/management.rs", "src/core_nft/src/queries/icrc7.rs", "src/core_nft/src/queries/icrc37.rs"]}
{"id": "C154", "title": "A further permission never does harm", "statement": "Whatever is not refused for lack of permission gets the same answer and does the same when more is permitted, to whomever, and afterwards again more is permitted. So along any history in which nobody is refused for lack of permission, permissions that were not used can be withdrawn without anybody noticing, and the guarded reads tell the same.", "quantifier": "all states, histories and messages, all pairs of permission tables of which one allows whatever the other allows", "why_tests_cant": "A test fixes one table of permissions; that a larger one never makes a difference compares all pairs of tables over histories of any length.", "anchors": ["src/core_nft/src/guards.rs", "src/core_nft/src/types/permissions.rs", "src/core_nft/src/updates/management.rs"]}
{"id": "C155", "title": "A higher limit refuses nothing that was granted", "statement": "If the supply cap and the limits of batches, memos, approvals and revocations are raised, then every call in whose way no limit stood gets the same answer as before and has the same effect. Limits of 2^32 or more are the exception: with such a limit for memos a transfer that was granted traps.", "quantifier": "all states, histories and messages, all pairs of settings of which one has limits no lower than the other's, new limits below 2^32", "why_tests_cant": "A test fixes one setting; that a higher limit changes nothing else compares all pairs of settings over histories of any length.", "anchors": ["src/core_nft/src/updates/icrc7.rs", "src/core_nft/src/updates/icrc37.rs", "src/core_nft/src/updates/management.rs", "src/core_nft/src/utils.rs"]}
{"id": "C156", "title": "What is written in memos and metadata is carried, never read", "statement": "If every memo is replaced by another of the same length, and every value in the metadata of tokens by another that can be stored exactly if the first can, in the messages and in the ledger, then every call gets the same answer and the ledger afterwards is the same but for the replaced contents, which appear in the same places: in approvals, in blocks and in the metadata. So no memo and no attribute of a token makes the program treat anybody or anything differently.", "quantifier": "all states, histories and messages, all replacements that keep the length of memos and whether values can be stored, any log that answers alike for the replaced blocks", "why_tests_cant": "A test uses some memos and some metadata; that no content whatever makes a difference compares all pairs of contents over histories of any length.", "anchors": ["src/core_nft/src/updates/icrc7.rs", "src/core_nft/src/updates/icrc37.rs", "src/core_nft/src/updates/management.rs", "src/core_nft/src/utils.rs: check_memo", "src/core_nft/src/types/metadata.rs"]}
{"id": "C157", "title": "Two indexes of one ledger agree", "statement": "Two index canisters that read the same ledger, each in its own rounds and in its own order of replies, archives and calls, agree: the one that has read less lists under every key what the other lists, but for blocks it has not read; if both have read as far, they list the same in the same order and give the same blocks in answer to the same query, filtered or not, whatever their caches hold. Rounds of reading must not overlap, otherwise they can differ.", "quantifier": "all ledgers, all pairs of histories of the two indexes with rounds that do not overlap, all keys, filters and pages", "why_tests_cant": "A test feeds one index; agreement of two with independent schedules quantifies over pairs of histories.", "anchors": ["src/index_icrc7/src/index.rs", "src/index_icrc7/src/update/get_blocks.rs", "src/index_icrc7/src/jobs.rs"]}
{"id": "C158", "title": "Only approvals in force count", "statement": "Two ledgers that differ only in approvals that have expired answer every call alike, and afterwards the same approvals are in force, as long as no approval is refused for the number of approvals; so expired approvals can be cleared out at any moment without anybody noticing by an answer. They do take up room under the limit of approvals: an approval that has expired stands in the way of a new one until its spender has been refused.", "quantifier": "all states, histories and messages whose clock does not run backwards, any behaviour of the log", "why_tests_cant": "A test tries one expired approval in one place; that expired approvals make no difference to any call compares all pairs of ledgers over histories of any length.", "anchors": ["src/core_nft/src/updates/icrc37.rs: transfer_from, approve_token, approve_collection, revoke_token_approvals, revoke_collection_approvals"]}
{"id": "C159", "title": "A refused call might as well not have been made", "statement": "With a log that takes what it is given, a call that is refused as a whole (a trap, a rejection, an error, or an error for every item) leaves nothing behind but what the rate limiter remembers, and at most drops approvals that have expired. Any number of refused calls can therefore be left out of a history: the other calls get the same answers and the ledger ends with the same tokens, metadata, permissions, blocks, uploads and approvals in force, unless one of those calls meets the rate limiter or the limit of approvals. The refusals that do leave something: the upload calls that cancel the upload because its storage canister is unknown, and calls refused because the log failed.", "quantifier": "all states, all histories with a clock that does not run backwards, all choices of refused calls to leave out", "why_tests_cant": "A test compares one refused call in one state; that refusals never matter later quantifies over all histories with any set of refused calls removed.", "anchors": ["src/core_nft/src/updates/icrc7.rs", "src/core_nft/src/updates/icrc37.rs", "src/core_nft/src/updates/management.rs"]}
{"id": "C160", "title": "The numbers of tokens are only names", "statement": "If the tokens had other numbers - in the ledger, in the calls, in the blocks and in the history of the rate limiter - every call would leave the same ledger with the other numbers and get the same answer, with the other number where the answer is the number of a token, and every read would show the same; pages of tokens too if the renumbering keeps the order. So no token is treated differently for its number, two tokens could have each other's number, and a ledger that had given out more numbers before would do the same. The renumbering must leave 0 alone, which no token has: calls about number 0 count as calls about the collection for the rate limiter.", "quantifier": "all reachable states, all calls and histories, all injective renumberings that fix 0, keep the order of the numbers not given out yet and stay below 2^64", "why_tests_cant": "A test uses a few numbers; that the outcome never depends on which numbers they are is a statement about all pairs of ledgers.", "anchors": ["src/core_nft/src/updates/icrc7.rs", "src/core_nft/src/updates/icrc37.rs", "src/core_nft/src/updates/management.rs", "src/core_nft/src/guards.rs"]}
{"id": "C161", "title": "Who makes no call keeps the tokens", "statement": "The holder of a token need do nothing to keep it. Whatever others call, in any number and order, as long as none of them owns the account of the holder or is approved for the token or for the collection of that account, the token stays in the account and no approval is added. In particular a token minted to somebody who makes no call in the whole history of the ledger is theirs at the end, whatever the administrators, minters and other holders do. For a token received by a transfer this is not enough: the approvals given by the giver go with it, so their spender can take it away from a receiver who has never made a call.", "quantifier": "all reachable states, all histories of calls by outsiders; all histories from the installation", "why_tests_cant": "A test plays some attacks on a passive holder; that no sequence of calls by all other parties together takes the token is a statement about all histories.", "anchors": ["src/core_nft/src/updates/icrc7.rs", "src/core_nft/src/updates/icrc37.rs", "src/core_nft/src/updates/management.rs"]}
{"id": "C162", "title": "An approval is good for one transfer at most", "statement": "In any history from the installation, a spender moves at most as many tokens of others as approvals were given to them, for tokens and for collections together: every transfer for somebody else uses up an approval of the spender, whether for the token or for the whole collection, and nothing but an approval given to the spender adds one. So an approval for a collection of many tokens puts one of them at risk, not all.", "quantifier": "all spenders, all states, all histories; all histories from the installation", "why_tests_cant": "A test sees an approval used once and refused the second time; that over all interleavings of approvals, transfers, revocations and expiries the count never comes out ahead is an invariant over histories.", "anchors": ["src/core_nft/src/updates/icrc37.rs"]}
{"id": "C163", "title": "The log is a complete audit trail of the metadata", "statement": "The blocks tell the metadata of every token at any time: those it was minted with, and every change since, each starting where the one before ended, the last one ending with the metadata that the ledger shows. (The code does not put the metadata of a mint into the log, and an update that the log refuses has changed the metadata all the same. Otherwise the chain is complete: from the metadata of the mint through the updates in the log to those shown.)", "quantifier": "all reachable states, all histories in which the log refuses no update of metadata; whole lives of tokens from the mint on", "why_tests_cant": "A test checks the block of one update; that the blocks of all updates of a token, among all other calls, form an unbroken chain to what is shown is a statement about histories.", "anchors": ["src/core_nft/src/updates/management.rs:123-324", "src/core_nft/src/queries/icrc7.rs:177-211"]}
{"id": "C164", "title": "The ledger refines a machine of a dozen rules", "statement": "Whatever calls arrive, in whatever order and with whatever answers of the log and of the storage canisters, owners, approvals, token numbers and permissions change only by these rules: an owner transfers, approves, revokes or burns; a spender whose approval is in force (or the owner) moves the token, which uses up all approvals of the token and of the account; an approval that is over is forgotten; a minter adds tokens with the next numbers; a manager grants or takes permissions. Each rule has its condition and its full effect, and a call can only apply its own rules to the items it names.", "quantifier": "all reachable states, all calls, all histories from an installation on; every property kept by the rules is kept by the ledger", "why_tests_cant": "Tests exercise single rules; that nothing but these rules ever happens is a refinement between the code and the small machine.", "anchors": ["src/core_nft/src/updates/icrc7.rs:14-159", "src/core_nft/src/updates/icrc37.rs:14-851", "src/core_nft/src/updates/management.rs:123-371", "src/core_nft/src/updates/management.rs:640-670"]}
{"id": "C165", "title": "A collection approval covers every token of the account, now and later", "statement": "An account can approve a spender for its collection whether or not it holds a token by then (ICRC-37), and until the approval ends the spender can move any token that the account holds, also tokens that it receives later. (In the code a principal that holds no token is refused, and the first token moved uses the approval up. Proved: as long as no token was moved out of the account by a spender, and its principal gave and revoked no collection approval, every token the account holds by then can be moved.)", "quantifier": "all reachable states, all histories between the approval and the transfer that leave the approvals of the account alone, all tokens", "why_tests_cant": "A test moves a token held at the time of the approval; the tokens that come and go in between are a history.", "anchors": ["src/core_nft/src/updates/icrc37.rs:231-377", "src/core_nft/src/updates/icrc37.rs:661-851"]}
{"id": "C166", "title": "Whatever the ledger keeps has its block", "statement": "No call adds a record to the ledger without a block of its kind in the log: there are never more tokens than mint blocks, never more approvals of tokens or of collections than blocks of their making, and no metadata without a block. (The code keeps the metadata of a mint that the log refused, see C45; the other records are so bounded.)", "quantifier": "all reachable states, all calls, all answers of the log", "why_tests_cant": "A test sees the records of one call; the bound is an invariant of all histories with a log that may refuse anything.", "anchors": ["src/core_nft/src/updates/management.rs:123-227", "src/core_nft/src/updates/icrc37.rs:65-377"]}
{"id": "C167", "title": "What everybody has renounced is closed for ever", "statement": "Once nobody holds the permission to manage authorities, nobody ever gets or loses a permission again. What nobody is permitted to do by then is never done again: without minters no token is ever added, without minters and updaters the metadata of all tokens stay, without the permission for it the settings of the collection stay, and the uploaded files and their redirections stay. Owners keep the use of their tokens.", "quantifier": "all reachable states in which nobody manages authorities, all histories from there, upgrades included", "why_tests_cant": "Buyers rely on a collection being closed for ever; no finite set of tries shows that there is no way back.", "anchors": ["src/core_nft/src/updates/management.rs:28-370", "src/core_nft/src/updates/management.rs:640-670", "src/core_nft/src/types/permissions.rs:25-53", "src/core_nft/src/guards.rs:13-125"]}
{"id": "C168", "title": "The balances of all accounts add up to the total supply", "statement": "If icrc7_balance_of is asked about different accounts that between them own every token, the answers add up to icrc7_total_supply.", "quantifier": "all histories and all lists of accounts that between them own every token", "why_tests_cant": "A sum over all accounts after any number of mints, transfers and burns.", "anchors": ["src/core_nft/src/state.rs:197-204", "src/core_nft/src/queries/icrc7.rs:127-130", "src/core_nft/src/queries/icrc7.rs:237-261", "src/core_nft/src/updates/management.rs:326-372"]}
{"id": "C169", "title": "A token is lost only by its holder's own doing", "statement": "Whenever a token leaves an account, the call is made by the principal of that account, or an earlier call of that principal approved the spender for a time not yet over.", "quantifier": "all histories from the installation, all messages after them", "why_tests_cant": "The reason for a loss lies arbitrarily far back in the history, with any number of approvals, revocations and transfers in between.", "anchors": ["src/core_nft/src/updates/icrc37.rs:56-377", "src/core_nft/src/updates/icrc37.rs:658-860", "src/core_nft/src/updates/icrc7.rs:13-114", "src/core_nft/src/updates/management.rs:326-372"]}
{"id": "C170", "title": "What was served once is served for ever, at the same address", "statement": "Once a visitor of a path is redirected to a file, every later visitor of the path is redirected to it, whatever is uploaded, cancelled, granted or upgraded in between; the answer stays certified.", "quantifier": "all reachable states of ledger and router, all continuations, all iteration orders of upgrades, all paths", "why_tests_cant": "Tests visit a file right after its upload; the promise is about the whole life of the collection, including every upgrade, which rebuilds the router.", "anchors": ["src/core_nft/src/queries/http_request.rs:15-117", "src/core_nft/src/updates/management.rs:469-540", "src/core_nft/src/lifecycle/post_upgrade.rs:24-65", "src/core_nft/src/types/http.rs:29-107"]}
{"id": "C171", "title": "One message with several items or several messages come to the same", "statement": "For transfers, approvals, delegated transfers and revocations: a call with many items ends in the same state with the same answers as calls with parts of the list, made one after the other.", "quantifier": "all states, callers, lists of items and ways of cutting them", "why_tests_cant": "The number of ways to cut a batch is exponential, and each item depends on what the items before it left.", "anchors": ["src/core_nft/src/updates/icrc7.rs:116-159", "src/core_nft/src/updates/icrc37.rs:50-63", "src/core_nft/src/updates/icrc37.rs:214-229", "src/core_nft/src/updates/icrc37.rs:379-420", "src/core_nft/src/updates/icrc37.rs:517-546", "src/core_nft/src/updates/icrc37.rs:646-659"]}
{"id": "C172", "title": "Both parties find a change of ownership in the index under their accounts", "statement": "Whenever a message takes a token from an account or gives it to one, an index that is up to date lists under that account a block written by that message, about that token, naming the account as its source or destination.", "quantifier": "all histories of the ledger, all messages in them, all runs of the index, all tokens and accounts", "why_tests_cant": "It joins three programs (ledger, log, index); a test sees one transfer in an index that has just read it.", "anchors": ["src/index_icrc7/src/index.rs: add_block_to_index", "src/index_icrc7/src/blocks.rs: extract_accounts, extract_token_id", "src/core_nft/src/updates/icrc7.rs:13-114", "src/core_nft/src/updates/icrc37.rs:661-851", "src/core_nft/src/updates/management.rs:326-372"]}
{"id": "C173", "title": "An approval ends only by the holder's act, by use or by time", "statement": "An approval in force stays as it is until the holder of the token (for collections: the account that gave it) revokes or renews it, it is used (for tokens: a spender moves the token), or its time is over; no other message of anybody ends it.", "quantifier": "all states, all histories from them, all approvals", "why_tests_cant": "The messages that must not end the approval are all others, in any number and order.", "anchors": ["src/core_nft/src/updates/icrc37.rs:65-212", "src/core_nft/src/updates/icrc37.rs:231-377", "src/core_nft/src/updates/icrc37.rs:422-515", "src/core_nft/src/updates/icrc37.rs:548-644", "src/core_nft/src/updates/icrc37.rs:661-851"]}
{"id": "C174", "title": "Every permission goes back to the installation", "statement": "Whoever holds a permission was named at installation or has it by a grant answered Ok, made by somebody who held ManageAuthorities then and for whom the same is true, and has kept it since; so has whoever is not turned away from a management call, and whoever minted a token that exists. A circle that contains everybody named at installation and grants nothing to outsiders keeps all permissions to itself.", "quantifier": "all installations, all histories from them, all principals and permissions", "why_tests_cant": "The chain of grants may have any length and may run through people who have long lost their rights.", "anchors": ["src/core_nft/src/updates/management.rs:640-670", "src/core_nft/src/types/permissions.rs:42-53", "src/core_nft/src/lifecycle/init.rs:46-188"]}
{"id": "C175", "title": "What an account holds is what came in less what went out", "statement": "The number of tokens of an account, and the balance reported for it, is the number of blocks that brought it a token (mints and transfers to it) less the number of blocks that took one away (transfers from it and burns); between two moments it changes by the blocks written in between.", "quantifier": "all installations, all histories, all accounts", "why_tests_cant": "The books have to balance for every account after every history, not for the accounts of one scenario.", "anchors": ["src/core_nft/src/updates/icrc7.rs", "src/core_nft/src/updates/icrc37.rs:661-851", "src/core_nft/src/updates/management.rs:326-371", "src/core_nft/src/state.rs"]}
{"id": "C176", "title": "Every token has an unbroken chain of custody", "statement": "The blocks about a token begin with its mint and tell it only there; every later block, a transfer or the burn, takes the token from the account the block before left it with; the last one leaves it with the owner the ledger names, or with nobody after a burn. Exactly the numbers given out have such papers.", "quantifier": "all installations, all histories, all token ids", "why_tests_cant": "A gap can arise from any interleaving of mints, transfers, delegated transfers, burns and refusals of the log.", "anchors": ["src/core_nft/src/updates/icrc7.rs", "src/core_nft/src/updates/icrc37.rs:661-851", "src/core_nft/src/updates/management.rs:326-371"]}
