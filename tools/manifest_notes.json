{
 "C06": "False of the code: icrc7_transfer keeps token approvals; witness and the exact behaviour are proved.",
 "C07": "Holds for transfers, approvals, revocations, burns; a refused multi-token mint can leave blocks in the log (refuted).",
 "C09": "Holds unless the log answers duplicate, which is answered Ok without moving the token (refuted).",
 "C11": "False for mints that fail half-way (refuted); strict replay is exact otherwise; the last block about each handed-out id is always right.",
 "C13": "Only the default account of the anonymous principal is refused (refuted for other subaccounts).",
 "C14": "The stated condition that the configured values do not overflow is needed (witness).",
 "C18": "False of the code: the flag only rejects oversized batches.",
 "C25": "Revocation of a collection approval always concerns the default subaccount (refuted otherwise; holds for the default subaccount).",
 "C26": "icrc37_transfer_from drops every collection approval of the sender (refuted); approvals of other accounts and tokens are kept.",
 "C27": "icrc37_is_approved does not agree with transfer_from in general (refuted in both directions); agreement is proved for token approvals.",
 "C28": "The listed approvals and paging are exact; the listed from_subaccount is the spender's (refuted part).",
 "C29": "Paging is exact for page sizes >= 1; a configured default page size of 0 yields nothing (refuted part).",
 "C31": "Burn leaves the balance unchanged (refuted); the balance equals the listed tokens plus the tokens the account burned, so it is exact for accounts that burned nothing.",
 "C38": "False of the code: the lock set is serialized while the waiting call is lost, so an upgrade in the middle of an upload call blocks management for ever (refuted); holds when no call is waiting.",
 "C39": "Exact for every setting but collection_metadata, which is accepted and ignored (refuted).",
 "C40": "permitted_drift and the storage threshold are swapped and collection_metadata is ignored (refuted); every other parameter is reported back.",
 "C42": "Exact unless an earlier mint was refused by the log half-way, whose metadata then leak into the next tokens (refuted); the general overlay behaviour is proved.",
 "C44": "False when the log refuses the block: the metadata are already replaced (refuted); everything else holds.",
 "C45": "False when the log refuses a block: earlier blocks and the metadata of the future ids stay (refuted); owners, ids and existing metadata are unchanged.",
 "C48": "The record is permanent and later calls fail; the redirection of \"/a\" is taken over by an upload of \"a\" (refuted), else it is kept.",
 "C51": "False of the code: comparison inverted, milliseconds added to nanoseconds, state not looked at (refuted both ways); exact behaviour proved.",
 "C69": "A canister created during a failing init_upload is forgotten (refuted); known canisters are never lost.",
 "C70": "Traps on an empty collection approval, and the message of a batch of collection approvals shows only the first spender (both refuted); everything else holds.",
 "C71": "For page sizes below 2^32 and fewer than 2^32 uploads; a larger page size repeats the first page (refuted).",
 "C55": "Exactness under non-overlapping index rounds; soundness for every history.",
 "C56": "False of the code for self-transfers and overlapping rounds (refuted); proved otherwise.",
 "C57": "An unknown block type stops the index for ever (refuted); progress proved when the round is answered and every block is understood.",
 "C58": "For start + length below 2^32; beyond, the 32-bit cast empties the page or traps (refuted).",
 "C59": "For totals below 2^32 and ids listed once; a block naming an account twice is returned twice (refuted).",
 "C60": "Ascending order proved in full; descending queries ignore the start (refuted), exact behaviour proved.",
 "C63": "False of the code: the job traps whenever there is something to remove (refuted).",
 "C65": "Every block is understood and its keys are characterised exactly; token ids of 37xfer blocks, spenders of 37approve_coll blocks and accounts with a subaccount are left out (refuted). Assumes the block encoding of the external log library as written in PropertiesCross.v.",
 "C52": "CBOR primitives of the external crate minicbor are written out in ModelCodec.v, with the UTF-8 check of decoded texts (C52_utf8: exactly the encodings of lists of Unicode scalar values). C52_decoded: whatever bytes are stored, a value read from them can be written and reads back as itself.",
 "C66": "Order, ids and sizes proved for every read behaviour; that the whole file is sent holds if reads are never short (a short read loses the end: refuted); when file and chunk size together exceed 2^64 nothing is sent (refuted).",
 "C68": "Proved for values without a colon; a value with a colon is cut (refuted).",
 "C75": "False of the code: answers of init_upload and store_chunk are not looked at (refuted); undelivered calls and the final answer are handled as stated.",
 "C77": "Proved for arguments without further colons and values that are not NaN or infinite; such values become null (refuted).",
 "C30": "Exact for page sizes >= 1; a configured default page size of 0 lists nothing (refuted part).",
 "C79": "Proved for all paths but the three reserved names, which shadow uploads of that name (refuted). The certification tree of the external crate is its content.",
 "C80": "False of the code for logs and traces (their certificate is for /metrics) and for metrics from the first upgrade on (refuted); proved for metrics before.",
 "C82": "False of the code for approve_tokens, approve_collection and transfer_from (refuted); proved for transfer, mint and both revocations.",
 "C86": "False of the code: the rate limiter counts calls of anybody, also refused ones (refuted); proved that calls about other tokens and calls at least 60 ms old do not hinder.",
 "C91": "False of the code for icrc7_transfer when the log reports a duplicate: success is answered and nothing logged (refuted); proved for all other calls and for transfers with a log that reports no duplicate.",
 "C92": "False of the code in two places: icrc7_transfer answers InvalidRecipient to a caller who is not the owner, mint answers ExceedMaxAllowedSupplyCap for an oversized batch (both refuted); proved for all other errors of these and all other update calls.",
 "C93": "False of the code: icrc7_transfer answers success, icrc37_transfer_from a general error or the constant 2 (refuted); proved that nothing is executed again and that icrc7_transfer answers the number of the old block.",
 "C95": "False of the code: the list is computed at installation and later grants and revocations are not passed on (refuted); proved what the list is at all times and that it is right at an installation outside test mode.",
 "C96": "False of the code: after an upgrade new storage canisters still get the old code and version (refuted); proved that all of them get those of the installation.",
 "C97": "False of the code: no window at all when unset, milliseconds against nanoseconds when set (refuted); proved that a configured window of the log covers the ledger's while that setting is not changed.",
 "C98": "False of the code: /metrics shows the whole permission table to anybody (refuted); proved that nothing else of the state shows.",
 "C102": "False of the code: the last administrator can revoke their own permission, for ever (refuted); proved that this is the only way.",
 "C103": "False of the code: a mint accepts the anonymous account (refuted); proved for histories without such a mint and without transfer_from to a subaccount of the anonymous principal.",
 "C104": "False of the code: the limiter remembers every id ever named, by anybody (refuted); proved that it remembers at most five times for each id.",
 "C107": "False of the code: the from_subaccount is never read (refuted); proved that it makes no difference at all.",
 "C108": "False of the code: the ICRC-37 calls do not check memos (refuted); proved for transfers by owners and mints.",
 "C109": "False of the code: it is accepted and listed (refuted); proved that it authorizes nothing.",
 "C110": "False of the code: an approval of oneself given before survives icrc7_transfer (refuted); proved for senders without such approvals.",
 "C111": "False of the code at the limit (refuted); proved that an accepted approval replaces exactly the listed one.",
 "C112": "False of the code: approvals stay listed and confirmed, metadata stay stored (refuted); proved for owner, metadata and token queries, for ever.",
 "C113": "False of the code: empty revocation, settings from 2^32 (refuted); proved for settings in range, fewer than 2^64 tokens ever minted and non-empty revocations.",
 "C114": "False of the code: one shared window (refuted); proved that calls about single tokens and calls older than 60 ms do not interfere.",
 "C115": "False of the code: paging restarts when the spender named is gone (refuted); proved for spenders still listed.",
 "C116": "False of the code: success although the spender has no approval (refuted); proved that the answer ApprovalDoesNotExist is always true. C116_never_approved: where no approval was ever asked for, no revocation succeeds.",
 "C117": "False of the code: the cap can be lowered below the supply (refuted); proved for histories that never do so.",
 "C118": "False of the code for transaction window and logo (refuted); proved for the approval limits.",
 "C119": "Proved: the dialogue yields exactly the entries its lines describe. False for texts that begin or end with white space (refuted).",
 "C120": "False of the code: a yes/no question at the end of the input is repeated for ever (refuted); proved that this is the only way.",
 "C121": "Proved in both directions; false for values read as non-finite numbers, which become null (refuted).",
 "C123": "Proved for account and metadata; false for the name, which is ignored (refuted).",
 "C124": "Proved for grant, revoke and has; list prints duplicates and fails for principals without a record (refuted).",
 "C125": "False of the code: refused announcements are not noticed (refuted), empty files cannot be uploaded (refuted). Proved for accepted announcements without cancellation, that it stays so, and that the command succeeds for non-empty files when nothing is in its way.",
 "C126": "Proved for accepted announcements and as long as no upload differing in the leading slash is finished; repeating the command fails (refuted).",
 "C127": "For single items. The log may answer differently only in the number of the new block.",
 "C128": "False of the code for two delegated transfers under collection approvals of one owner (refuted, a consequence of C26). Proved for any two other calls, for sequences of any length without delegated transfers in any order, and for the items of one batch of transfers within the batch limit.",
 "C129": "False of the code when the log answers that a transfer is a duplicate: the same answer comes with and without a change of owner (refuted). Proved for all calls and histories in which the log never gives that answer and the clock does not run backwards.",
 "C130": "False of the code after a lost reply, a trapping continuation, an upgrade while a call waits, or a collection (refuted, four witnesses). Proved for all executions without these four, whatever else fails.",
 "C131": "False of the code: an upload dropped by the storage canister blocks its path for ever (C131_dropped_for_ever, refuted). Proved while ledger and storage canister agree.",
 "C132": "False of the code for init_upload, which never reports that the file exists (refuted). Proved for store_chunk, finalize_upload and cancel_upload; C132_choice relates the choice of canister to the model of C50.",
 "C133": "Messages are assumed to be of their Candid types (typed_msg). A metadata map of 2^64 entries or more is excluded by hypothesis; it would not fit into a canister. The B-tree of the external crate ic-stable-structures is taken as a map from keys to bytes.",
 "C134": "The successive calls come from the same caller at the same time; the block log is the oracle e_log, asked in the same order.",
 "C135": "serde_json is an oracle; the hypothesis says it reads back what it printed up to the numbers. Start-up must succeed for the second command too (starts).",
 "C136": "The last part (independence of the network) is refuted for the default network 'local' and proved for 'ic'. Parsing of the command line by clap is not modelled.",
 "C137": "Blocks as the index sees them are related to logged transactions by encodes, as in C65; owners are compared by the text of the account. Token ids below the next id to be handed out. The index is assumed to be up to date, its ledger honest and its updates not overlapping.",
 "C138": "Lists of 2^64 blocks are excluded (they would not fit into memory). The stable map itself (ic-stable-structures) is trusted to return the bytes it was given.",
 "C139": "False as stated (C139_message_refuted). C139_message_partial is exact: same text if and only if same method and same [told].",
 "C140": "False for burn_nft (C140_has_message_refuted), true for every other call (C140_has_message_partial). C140_no_message: no management call has one.",
 "C141": "Header fields added by the external router (location, certificate) are the target and what the crate documents; the name of the certificate expression header is a hypothesis.",
 "C142": "The storage canisters are the ones of C125 (any that accept a file only if its hash is the announced one); that they accept a chunk again is a hypothesis about them.",
 "C143": "False of the code: refused announcements and chunks are not noticed (refuted, as C75). Proved for every other request, and that a granted last call means success.",
 "C144": "False of the code in the unit the words name (refuted): the number is one of nanoseconds, called milliseconds. Proved exact in nanoseconds.",
 "C145": "Page sizes of 0 are excluded by a hypothesis, see C29 and C30. The bound on the ids is only needed for the reading to end.",
 "C146": "Proved for filters on tokens, types and accounts that no block names in two fields; otherwise blocks are read twice (refuted).",
 "C147": "False of the code (refuted, for every order of iteration). Proved for uploads that keep their position.",
 "C148": "Owners and approvals of tokens are not given by permissions at all: C04, C05, C20.",
 "C149": "False of the code through the management lock alone (refuted: a burn is refused while an upload waits). Proved when no other management call comes while the lock is held. Redirections of finalized files are public by design, see C79.",
 "C150": "False of minting (refuted) and of a batch that names the same token twice (refuted: the rate limiter may stop the repetition half-way). Proved for every other call and batch.",
 "C151": "Storage canisters are not renamed: their text is part of the redirections. The order in which a hash map lists approvals is external; the entries and the pages made of them are renamed.",
 "C152": "The shifted clock plus the permitted drift plus the transaction window must stay below 2^64 (hypothesis fits): the additions of the code wrap there.",
 "C153": "The transaction log is outside the ledger; it is assumed not to tell the two ways apart (hypothesis same_log). icrc37_is_approved is the exception: refuted for an account that approved itself for the collection, and proved (_partial) where there is no such approval.",
 "C154": "The reads of the permissions themselves tell of course what is permitted; has_permission stays true where it was true.",
 "C155": "Creation time window, drift and the atomic rule are the same in both settings (they are no limits in this sense); limits of 2^32 or more are refuted (C155_huge_refuted).",
 "C156": "Length-preserving on memos (the limit reads the length) and preserving whether a value can be stored; the keys of metadata stay, since lists of metadata are ordered by them; the log is an oracle that answers alike for the replaced blocks.",
 "C157": "Rounds of reading must not overlap (refuted otherwise: C157_overlap_refuted), filtered pages below 2^32, unfiltered ones within the height of the ledger, newest first within what was read.",
 "C158": "The rest of the ledger (including rate limiter windows) must be equal; answers refused for the number of approvals are excepted, and that exception is necessary (C158_room_refuted). Listings of approvals do show the expired ones.",
 "C159": "The calls left out must find a log that takes entries (necessary: C159_log_refuted); the calls kept must not meet the rate limiter or the limit of approvals in either history (necessary: C159_limiter_refuted, C158_room_refuted).",
 "C160": "The renumbering fixes 0 (necessary: C160_zero_refuted) and maps the numbers up to a bound L below 2^64 (larger numbers cannot be stored with metadata or approvals); calls that mint stay within L.",
 "C161": "C161_received_refuted: a token received by icrc7_transfer comes with the approvals of the giver (C06), so the claim for the whole history is made for minted tokens.",
 "C162": "An upper bound. That an approval for a collection survives its use, as the standard asks, does not hold (C26): the first transfer removes all approvals for the collection of the account.",
 "C163": "False in full: C163_minted_refuted (no metadata in mint blocks), C163_unlogged_refuted (a refused update changes the metadata). The partial theorems assume that the log refuses no update and start from the metadata of the mint request.",
 "C164": "Safety only: the rules say what may happen, not that an enabled rule can always be carried out (see C83, C84). Metadata, settings, uploads and the log are not part of the machine.",
 "C165": "False in full: C165_first_refuted (a principal without a token is refused), C165_used_up_refuted (the first token moved by a spender ends the approval). The partial theorems cover everything else, tokens received later included.",
 "C166": "False for metadata (C166_metadata_refuted: a refused mint leaves them). The partial theorems bound tokens and both kinds of approvals by the blocks of their kinds.",
 "C167": "An upgrade is that of the same code: a controller of the canister can still install other code. Uploads need that no upload call is under way at that moment.",
 "C168": "Fails after a burn, which leaves the token in the index that icrc7_balance_of counts. Proved: the exact sum, and equality as long as nothing was burned.",
 "C169": "Fails because icrc7_transfer keeps the approvals of the giver (C06). Proved: the approval was given by the holder at that time, no transfer_from has moved the token since, and if the holder has changed, then by icrc7_transfer.",
 "C170": "That the file is served for ever is proved. That its address stays fails when the file is uploaded again under the other spelling of its path; proved that nothing else changes it and that it changes once at most.",
 "C171": "Proved without condition for approvals and delegated transfers. Fails for icrc37_revoke_token_approvals, where the rate limiter counts messages; for transfers and collection revocations proved for lists within the batch limit.",
 "C172": "Fails for accounts with a subaccount, under which the index lists nothing (C65). Proved for all accounts with the default subaccount.",
 "C173": "Proved in full for approvals of tokens. For collections it fails because a transfer_from by any spender clears all collection approvals of the account (C26); proved that nothing else does.",
 "C175": "Fails after a mint of several tokens that the log cut off (C11), and the reported balance counts tokens the account burned (C31). Proved for all histories without such a mint; for the reported balance with the burned tokens added. For every single token it is proved without condition, in its papers from the last mint told on (C175_token).",
 "C176": "Fails after a mint of several tokens that the log cut off (C11): its first blocks remain and the numbers are given out again. Proved for all histories without such a mint, and for all reachable states from the last mint told on (C176_since_mint)."
}