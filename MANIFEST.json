{
 "claims": [
  {
   "property": "C01",
   "status": "proved",
   "theorems": [
    "C01_ids_never_reused",
    "C01_mint_creates"
   ],
   "note": ""
  },
  {
   "property": "C02",
   "status": "proved",
   "theorems": [
    "C02_supply_cap"
   ],
   "note": ""
  },
  {
   "property": "C03",
   "status": "proved",
   "theorems": [
    "C03_supply_counts"
   ],
   "note": ""
  },
  {
   "property": "C04",
   "status": "proved",
   "theorems": [
    "C04_only_entitled_move"
   ],
   "note": ""
  },
  {
   "property": "C05",
   "status": "proved",
   "theorems": [
    "C05_transfer_from_clears_approvals"
   ],
   "note": ""
  },
  {
   "property": "C06",
   "status": "partial",
   "theorems": [
    "C06_new_owner_free_refuted",
    "C06_transfer_keeps_approvals_partial"
   ],
   "note": "False of the code: icrc7_transfer keeps token approvals; witness and the exact behaviour are proved."
  },
  {
   "property": "C07",
   "status": "partial",
   "theorems": [
    "C07_refused_item_changes_nothing",
    "C07_refused_transfer_from",
    "C07_refused_mint_partial",
    "C07_mint_log_refuted"
   ],
   "note": "Holds for transfers, approvals, revocations, burns; a refused multi-token mint can leave blocks in the log (refuted)."
  },
  {
   "property": "C08",
   "status": "proved",
   "theorems": [
    "C08_trap_changes_nothing",
    "C08_transfer_never_traps"
   ],
   "note": ""
  },
  {
   "property": "C09",
   "status": "partial",
   "theorems": [
    "C09_transfer_exact_partial",
    "C09_transfer_exact_refuted",
    "C09_batch_partial"
   ],
   "note": "Holds unless the log answers duplicate, which is answered Ok without moving the token (refuted)."
  },
  {
   "property": "C10",
   "status": "proved",
   "theorems": [
    "C10_transfer_from_exact",
    "C10_batch"
   ],
   "note": ""
  },
  {
   "property": "C11",
   "status": "partial",
   "theorems": [
    "C11_log_replay_refuted",
    "C11_log_replay_partial",
    "C11_log_last_partial"
   ],
   "note": "False for mints that fail half-way (refuted); strict replay is exact otherwise; the last block about each handed-out id is always right."
  },
  {
   "property": "C12",
   "status": "proved",
   "theorems": [
    "C12_no_anonymous_recipient",
    "C12_no_self_transfer",
    "C12_anonymous_caller",
    "C12_batch_no_self_transfer"
   ],
   "note": ""
  },
  {
   "property": "C13",
   "status": "partial",
   "theorems": [
    "C13_anonymous_recipient_refuted",
    "C13_anonymous_default_account_partial"
   ],
   "note": "Only the default account of the anonymous principal is refused (refuted for other subaccounts)."
  },
  {
   "property": "C14",
   "status": "proved",
   "theorems": [
    "C14_transfer_time_window",
    "C14_transfer_time_complete",
    "C14_overflow_condition_needed",
    "C14_batch_time_window"
   ],
   "note": "The stated condition that the configured values do not overflow is needed (witness)."
  },
  {
   "property": "C15",
   "status": "proved",
   "theorems": [
    "C15_approval_time_window",
    "C15_batch_time_window"
   ],
   "note": ""
  },
  {
   "property": "C16",
   "status": "proved",
   "theorems": [
    "C16_memo_limit",
    "C16_batch_memo_limit"
   ],
   "note": ""
  },
  {
   "property": "C17",
   "status": "proved",
   "theorems": [
    "C17_batch_positional"
   ],
   "note": ""
  },
  {
   "property": "C18",
   "status": "partial",
   "theorems": [
    "C18_atomic_refuted",
    "C18_atomic_oversized_partial"
   ],
   "note": "False of the code: the flag only rejects oversized batches."
  },
  {
   "property": "C19",
   "status": "proved",
   "theorems": [
    "C19_at_most_five_per_window",
    "C19_refused_only_if_busy"
   ],
   "note": ""
  },
  {
   "property": "C20",
   "status": "proved",
   "theorems": [
    "C20_only_owner_approves",
    "C20_transfer_from_adds_none",
    "C20_only_owner_approves_collection",
    "C20_approval_provenance",
    "C20_transfer_from_removes",
    "C20_transfer_from_removes_collection"
   ],
   "note": ""
  },
  {
   "property": "C21",
   "status": "proved",
   "theorems": [
    "C21_approval_usable"
   ],
   "note": ""
  },
  {
   "property": "C22",
   "status": "proved",
   "theorems": [
    "C22_expired_cannot_move",
    "C22_unauthorized_iff",
    "C22_expired_dropped",
    "C22_expiry_as_given",
    "C22_collection_expiry_as_given"
   ],
   "note": ""
  },
  {
   "property": "C23",
   "status": "proved",
   "theorems": [
    "C23_revoke_effective",
    "C23_revoke_batch"
   ],
   "note": ""
  },
  {
   "property": "C24",
   "status": "proved",
   "theorems": [
    "C24_approvals_bounded"
   ],
   "note": ""
  },
  {
   "property": "C25",
   "status": "partial",
   "theorems": [
    "C25_revoke_collection_refuted",
    "C25_revoke_collection_partial"
   ],
   "note": "Revocation of a collection approval always concerns the default subaccount (refuted otherwise; holds for the default subaccount)."
  },
  {
   "property": "C26",
   "status": "partial",
   "theorems": [
    "C26_collection_kept_refuted",
    "C26_other_collections_kept_partial"
   ],
   "note": "icrc37_transfer_from drops every collection approval of the sender (refuted); approvals of other accounts and tokens are kept."
  },
  {
   "property": "C27",
   "status": "partial",
   "theorems": [
    "C27_is_approved_refuted",
    "C27_is_approved_partial"
   ],
   "note": "icrc37_is_approved does not agree with transfer_from in general (refuted in both directions); agreement is proved for token approvals."
  },
  {
   "property": "C28",
   "status": "partial",
   "theorems": [
    "C28_listing_first_page",
    "C28_collection_listing_first_page",
    "C28_paging",
    "C28_from_subaccount_refuted"
   ],
   "note": "The listed approvals and paging are exact; the listed from_subaccount is the spender's (refuted part)."
  },
  {
   "property": "C29",
   "status": "partial",
   "theorems": [
    "C29_paging_tokens",
    "C29_page_size",
    "C29_zero_page_refuted"
   ],
   "note": "Paging is exact for page sizes >= 1; a configured default page size of 0 yields nothing (refuted part)."
  },
  {
   "property": "C30",
   "status": "partial",
   "theorems": [
    "C30_tokens_of_partial",
    "C30_zero_page_refuted"
   ],
   "note": "Exact for page sizes >= 1; a configured default page size of 0 lists nothing (refuted part)."
  },
  {
   "property": "C31",
   "status": "partial",
   "theorems": [
    "C31_balance_refuted",
    "C31_balance_partial"
   ],
   "note": "Burn leaves the balance unchanged (refuted); the balance equals the listed tokens plus the tokens the account burned, so it is exact for accounts that burned nothing."
  },
  {
   "property": "C32",
   "status": "proved",
   "theorems": [
    "C32_batch_queries"
   ],
   "note": ""
  },
  {
   "property": "C33",
   "status": "proved",
   "theorems": [
    "C33_permission_needed",
    "C33_names_permission",
    "C33_queries_gated"
   ],
   "note": ""
  },
  {
   "property": "C34",
   "status": "proved",
   "theorems": [
    "C34_only_managers",
    "C34_origin"
   ],
   "note": ""
  },
  {
   "property": "C35",
   "status": "proved",
   "theorems": [
    "C35_grant",
    "C35_revoke",
    "C35_queries"
   ],
   "note": ""
  },
  {
   "property": "C36",
   "status": "proved",
   "theorems": [
    "C36_exclusion",
    "C36_starts_alone"
   ],
   "note": ""
  },
  {
   "property": "C37",
   "status": "proved",
   "theorems": [
    "C37_lock_released"
   ],
   "note": ""
  },
  {
   "property": "C38",
   "status": "partial",
   "theorems": [
    "C38_upgrade_lock_refuted",
    "C38_upgrade_lock_partial"
   ],
   "note": "False of the code: the lock set is serialized while the waiting call is lost, so an upgrade in the middle of an upload call blocks management for ever (refuted); holds when no call is waiting."
  },
  {
   "property": "C39",
   "status": "partial",
   "theorems": [
    "C39_update_settings_partial",
    "C39_collection_metadata_refuted"
   ],
   "note": "Exact for every setting but collection_metadata, which is accepted and ignored (refuted)."
  },
  {
   "property": "C40",
   "status": "partial",
   "theorems": [
    "C40_init_settings_partial",
    "C40_drift_refuted",
    "C40_collection_metadata_refuted",
    "C40_init_accepts"
   ],
   "note": "permitted_drift and the storage threshold are swapped and collection_metadata is ignored (refuted); every other parameter is reported back."
  },
  {
   "property": "C41",
   "status": "proved",
   "theorems": [
    "C41_upgrade_preserves",
    "C41_upgrade_invisible"
   ],
   "note": ""
  },
  {
   "property": "C42",
   "status": "partial",
   "theorems": [
    "C42_query",
    "C42_mint_overlay",
    "C42_mint_metadata_partial",
    "C42_mint_metadata_refuted",
    "C42_metadata_storable"
   ],
   "note": "Exact unless an earlier mint was refused by the log half-way, whose metadata then leak into the next tokens (refuted); the general overlay behaviour is proved."
  },
  {
   "property": "C43",
   "status": "proved",
   "theorems": [
    "C43_update_replaces"
   ],
   "note": ""
  },
  {
   "property": "C44",
   "status": "partial",
   "theorems": [
    "C44_failed_update_refuted",
    "C44_failed_update_partial"
   ],
   "note": "False when the log refuses the block: the metadata are already replaced (refuted); everything else holds."
  },
  {
   "property": "C45",
   "status": "partial",
   "theorems": [
    "C45_failed_mint_refuted",
    "C45_failed_mint_partial"
   ],
   "note": "False when the log refuses a block: earlier blocks and the metadata of the future ids stay (refuted); owners, ids and existing metadata are unchanged."
  },
  {
   "property": "C46",
   "status": "proved",
   "theorems": [
    "C46_metadata_changes"
   ],
   "note": ""
  },
  {
   "property": "C47",
   "status": "proved",
   "theorems": [
    "C47_life_cycle",
    "C47_call_behind",
    "C47_canister_known"
   ],
   "note": ""
  },
  {
   "property": "C48",
   "status": "partial",
   "theorems": [
    "C48_finalized_record",
    "C48_later_calls",
    "C48_redirection_partial",
    "C48_redirection_refuted"
   ],
   "note": "The record is permanent and later calls fail; the redirection of \"/a\" is taken over by an upload of \"a\" (refuted), else it is kept."
  },
  {
   "property": "C49",
   "status": "proved",
   "theorems": [
    "C49_redirections_exact",
    "C49_norm_path"
   ],
   "note": ""
  },
  {
   "property": "C50",
   "status": "proved",
   "theorems": [
    "C50_selection",
    "C50_too_large",
    "C50_manager_too_large"
   ],
   "note": ""
  },
  {
   "property": "C51",
   "status": "partial",
   "theorems": [
    "C51_gc_exact",
    "C51_gc_refuted",
    "C51_gc_idle_partial"
   ],
   "note": "False of the code: comparison inverted, milliseconds added to nanoseconds, state not looked at (refuted both ways); exact behaviour proved."
  },
  {
   "property": "C52",
   "status": "proved",
   "theorems": [
    "C52_value",
    "C52_token_id",
    "C52_account",
    "C52_metadata",
    "C52_token_approvals",
    "C52_collection_approvals",
    "C52_index_key",
    "C52_index_entry",
    "C52_cache_entry",
    "C52_key_form",
    "C52_utf8",
    "C52_decoded",
    "C52_decoded_entry",
    "C52_decoded_account",
    "C52_decoded_approval",
    "C52_decoded_key",
    "C52_decoded_ids",
    "C52_bad_text"
   ],
   "note": "CBOR primitives of the external crate minicbor are written out in ModelCodec.v, with the UTF-8 check of decoded texts (C52_utf8: exactly the encodings of lists of Unicode scalar values). C52_decoded: whatever bytes are stored, a value read from them can be written and reads back as itself."
  },
  {
   "property": "C53",
   "status": "proved",
   "theorems": [
    "C53_token_ids",
    "C53_accounts",
    "C53_index_keys",
    "C53_values"
   ],
   "note": ""
  },
  {
   "property": "C54",
   "status": "proved",
   "theorems": [
    "C54_encode_fails",
    "C54_insert_traps"
   ],
   "note": ""
  },
  {
   "property": "C55",
   "status": "proved",
   "theorems": [
    "C55_index_exact",
    "C55_index_sound"
   ],
   "note": "Exactness under non-overlapping index rounds; soundness for every history."
  },
  {
   "property": "C56",
   "status": "partial",
   "theorems": [
    "C56_self_transfer_refuted",
    "C56_overlap_refuted",
    "C56_once_partial"
   ],
   "note": "False of the code for self-transfers and overlapping rounds (refuted); proved otherwise."
  },
  {
   "property": "C57",
   "status": "partial",
   "theorems": [
    "C57_stuck_refuted",
    "C57_progress_partial",
    "C57_reply_accepted_partial"
   ],
   "note": "An unknown block type stops the index for ever (refuted); progress proved when the round is answered and every block is understood."
  },
  {
   "property": "C58",
   "status": "partial",
   "theorems": [
    "C58_filtered_partial",
    "C58_length_refuted"
   ],
   "note": "For start + length below 2^32; beyond, the 32-bit cast empties the page or traps (refuted)."
  },
  {
   "property": "C59",
   "status": "partial",
   "theorems": [
    "C59_pages_partial",
    "C59_twice_refuted"
   ],
   "note": "For totals below 2^32 and ids listed once; a block naming an account twice is returned twice (refuted)."
  },
  {
   "property": "C60",
   "status": "partial",
   "theorems": [
    "C60_ascending",
    "C60_ascending_above",
    "C60_descending_partial",
    "C60_descending_refuted"
   ],
   "note": "Ascending order proved in full; descending queries ignore the start (refuted), exact behaviour proved."
  },
  {
   "property": "C61",
   "status": "proved",
   "theorems": [
    "C61_true_blocks",
    "C61_same_answer"
   ],
   "note": ""
  },
  {
   "property": "C62",
   "status": "proved",
   "theorems": [
    "C62_grouping"
   ],
   "note": ""
  },
  {
   "property": "C63",
   "status": "partial",
   "theorems": [
    "C63_cleanup_removes_nothing",
    "C63_cleanup_refuted",
    "C63_cleanup_partial"
   ],
   "note": "False of the code: the job traps whenever there is something to remove (refuted)."
  },
  {
   "property": "C64",
   "status": "proved",
   "theorems": [
    "C64_names_round_trip",
    "C64_case_insensitive",
    "C64_parse_exact",
    "C64_names_differ"
   ],
   "note": ""
  },
  {
   "property": "C65",
   "status": "partial",
   "theorems": [
    "C65_keys_partial",
    "C65_understood",
    "C65_end_to_end_partial",
    "C65_transfer_from_refuted",
    "C65_collection_spender_refuted",
    "C65_subaccount_refuted"
   ],
   "note": "Every block is understood and its keys are characterised exactly; token ids of 37xfer blocks, spenders of 37approve_coll blocks and accounts with a subaccount are left out (refuted). Assumes the block encoding of the external log library as written in PropertiesCross.v."
  },
  {
   "property": "C66",
   "status": "partial",
   "theorems": [
    "C66_order",
    "C66_whole_partial",
    "C66_reads",
    "C66_panics",
    "C66_short_read_refuted",
    "C66_wrap_refuted"
   ],
   "note": "Order, ids and sizes proved for every read behaviour; that the whole file is sent holds if reads are never short (a short read loses the end: refuted); when file and chunk size together exceed 2^64 nothing is sent (refuted)."
  },
  {
   "property": "C67",
   "status": "proved",
   "theorems": [
    "C67_spellings",
    "C67_labels",
    "C67_distinct"
   ],
   "note": ""
  },
  {
   "property": "C68",
   "status": "partial",
   "theorems": [
    "C68_meaning_unique",
    "C68_arguments_partial",
    "C68_one_by_one",
    "C68_colon_refuted"
   ],
   "note": "Proved for values without a colon; a value with a colon is cut (refuted)."
  },
  {
   "property": "C69",
   "status": "partial",
   "theorems": [
    "C69_created_canister_refuted",
    "C69_canisters_kept_partial"
   ],
   "note": "A canister created during a failing init_upload is forgotten (refuted); known canisters are never lost."
  },
  {
   "property": "C70",
   "status": "partial",
   "theorems": [
    "C70_supported_partial",
    "C70_refusal",
    "C70_names_method",
    "C70_message_tells_method",
    "C70_message_tells_count_partial",
    "C70_never_traps_refuted",
    "C70_count_refuted"
   ],
   "note": "Traps on an empty collection approval, and the message of a batch of collection approvals shows only the first spender (both refuted); everything else holds."
  },
  {
   "property": "C71",
   "status": "partial",
   "theorems": [
    "C71_paging_partial",
    "C71_huge_page_refuted"
   ],
   "note": "For page sizes below 2^32 and fewer than 2^32 uploads; a larger page size repeats the first page (refuted)."
  },
  {
   "property": "C72",
   "status": "proved",
   "theorems": [
    "C72_collection_metadata"
   ],
   "note": ""
  },
  {
   "property": "C73",
   "status": "proved",
   "theorems": [
    "C73_has_permission",
    "C73_user_permissions",
    "C73_storage_canisters",
    "C73_upload_status",
    "C73_uploads"
   ],
   "note": ""
  },
  {
   "property": "C74",
   "status": "proved",
   "theorems": [
    "C74_announced_types"
   ],
   "note": ""
  },
  {
   "property": "C75",
   "status": "partial",
   "theorems": [
    "C75_init_refuted",
    "C75_store_refuted",
    "C75_stops_partial"
   ],
   "note": "False of the code: answers of init_upload and store_chunk are not looked at (refuted); undelivered calls and the final answer are handled as stated."
  },
  {
   "property": "C76",
   "status": "proved",
   "theorems": [
    "C76_validator_exact",
    "C76_created_valid"
   ],
   "note": ""
  },
  {
   "property": "C77",
   "status": "partial",
   "theorems": [
    "C77_attributes_partial",
    "C77_nonfinite_refuted"
   ],
   "note": "Proved for arguments without further colons and values that are not NaN or infinite; such values become null (refuted)."
  },
  {
   "property": "C78",
   "status": "proved",
   "theorems": [
    "C78_account",
    "C78_text_format",
    "C78_known_texts",
    "C78_accepted"
   ],
   "note": ""
  },
  {
   "property": "C79",
   "status": "partial",
   "theorems": [
    "C79_served_partial",
    "C79_reserved_refuted"
   ],
   "note": "Proved for all paths but the three reserved names, which shadow uploads of that name (refuted). The certification tree of the external crate is its content."
  },
  {
   "property": "C80",
   "status": "partial",
   "theorems": [
    "C80_logs_refuted",
    "C80_upgrade_refuted",
    "C80_metrics_partial",
    "C80_names"
   ],
   "note": "False of the code for logs and traces (their certificate is for /metrics) and for metrics from the first upgrade on (refuted); proved for metrics before."
  },
  {
   "property": "C81",
   "status": "proved",
   "theorems": [
    "C81_approve_tokens",
    "C81_approve_collection",
    "C81_transfer_from",
    "C81_revoke_collection",
    "C81_revoke_tokens"
   ],
   "note": ""
  },
  {
   "property": "C82",
   "status": "partial",
   "theorems": [
    "C82_limits_partial",
    "C82_approve_transfer_from_refuted"
   ],
   "note": "False of the code for approve_tokens, approve_collection and transfer_from (refuted); proved for transfer, mint and both revocations."
  },
  {
   "property": "C83",
   "status": "proved",
   "theorems": [
    "C83_transfer_succeeds",
    "C83_burn_succeeds"
   ],
   "note": ""
  },
  {
   "property": "C84",
   "status": "proved",
   "theorems": [
    "C84_approve_token_succeeds",
    "C84_approve_collection_succeeds",
    "C84_revoke_token_succeeds",
    "C84_revoke_collection_succeeds",
    "C84_transfer_from_succeeds"
   ],
   "note": ""
  },
  {
   "property": "C85",
   "status": "proved",
   "theorems": [
    "C85_mint_succeeds",
    "C85_update_metadata_succeeds",
    "C85_settings_succeed"
   ],
   "note": ""
  },
  {
   "property": "C86",
   "status": "partial",
   "theorems": [
    "C86_no_hindrance_refuted",
    "C86_no_hindrance_partial"
   ],
   "note": "False of the code: the rate limiter counts calls of anybody, also refused ones (refuted); proved that calls about other tokens and calls at least 60 ms old do not hinder."
  },
  {
   "property": "C87",
   "status": "proved",
   "theorems": [
    "C87_token_approvals_from_log",
    "C87_stored_token_approval_logged"
   ],
   "note": ""
  },
  {
   "property": "C88",
   "status": "proved",
   "theorems": [
    "C88_collection_approvals_from_log",
    "C88_stored_collection_approval_logged"
   ],
   "note": ""
  },
  {
   "property": "C89",
   "status": "proved",
   "theorems": [
    "C89_strangers_change_nothing",
    "C89_strangers_history"
   ],
   "note": ""
  },
  {
   "property": "C90",
   "status": "proved",
   "theorems": [
    "C90_log_append_only",
    "C90_log_chronological"
   ],
   "note": ""
  },
  {
   "property": "C91",
   "status": "partial",
   "theorems": [
    "C91_approvals_recorded",
    "C91_collection_approvals_recorded",
    "C91_revocations_recorded",
    "C91_collection_revocations_recorded",
    "C91_transfers_from_recorded",
    "C91_transfers_recorded_refuted",
    "C91_transfers_recorded_partial",
    "C91_mint_recorded",
    "C91_others_record_nothing",
    "C91_others_ask_nothing"
   ],
   "note": "False of the code for icrc7_transfer when the log reports a duplicate: success is answered and nothing logged (refuted); proved for all other calls and for transfers with a log that reports no duplicate."
  },
  {
   "property": "C92",
   "status": "partial",
   "theorems": [
    "C92_batch_reasons",
    "C92_batch_revoke_reasons",
    "C92_batch_transfer_reasons_partial",
    "C92_approve_reasons",
    "C92_approve_collection_reasons",
    "C92_revoke_reasons",
    "C92_revoke_collection_reasons",
    "C92_transfer_from_reasons",
    "C92_transfer_reasons_refuted",
    "C92_transfer_reasons_partial",
    "C92_mint_reasons_refuted",
    "C92_mint_reasons_partial",
    "C92_burn_reasons",
    "C92_update_reasons",
    "C92_settings_reasons",
    "C92_upload_reasons",
    "C92_upload_reply"
   ],
   "note": "False of the code in two places: icrc7_transfer answers InvalidRecipient to a caller who is not the owner, mint answers ExceedMaxAllowedSupplyCap for an oversized batch (both refuted); proved for all other errors of these and all other update calls."
  },
  {
   "property": "C93",
   "status": "partial",
   "theorems": [
    "C93_duplicates_reported_refuted",
    "C93_transfer_from_duplicates_refuted",
    "C93_duplicates_not_repeated_partial",
    "C93_transfer_answers_original_partial"
   ],
   "note": "False of the code: icrc7_transfer answers success, icrc37_transfer_from a general error or the constant 2 (refuted); proved that nothing is executed again and that icrc7_transfer answers the number of the old block."
  },
  {
   "property": "C94",
   "status": "proved",
   "theorems": [
    "C94_wrong_kind",
    "C94_version"
   ],
   "note": ""
  },
  {
   "property": "C95",
   "status": "partial",
   "theorems": [
    "C95_storage_rights_refuted",
    "C95_storage_rights_partial"
   ],
   "note": "False of the code: the list is computed at installation and later grants and revocations are not passed on (refuted); proved what the list is at all times and that it is right at an installation outside test mode."
  },
  {
   "property": "C96",
   "status": "partial",
   "theorems": [
    "C96_storage_code_refuted",
    "C96_storage_code_partial"
   ],
   "note": "False of the code: after an upgrade new storage canisters still get the old code and version (refuted); proved that all of them get those of the installation."
  },
  {
   "property": "C97",
   "status": "partial",
   "theorems": [
    "C97_log_window_refuted",
    "C97_log_window_partial"
   ],
   "note": "False of the code: no window at all when unset, milliseconds against nanoseconds when set (refuted); proved that a configured window of the log covers the ledger's while that setting is not changed."
  },
  {
   "property": "C98",
   "status": "partial",
   "theorems": [
    "C98_metrics_refuted",
    "C98_stranger_refuted",
    "C98_rest_hidden_partial",
    "C98_only_metrics"
   ],
   "note": "False of the code: /metrics shows the whole permission table to anybody (refuted); proved that nothing else of the state shows."
  },
  {
   "property": "C99",
   "status": "proved",
   "theorems": [
    "C99_regions",
    "C99_index_regions"
   ],
   "note": ""
  },
  {
   "property": "C100",
   "status": "proved",
   "theorems": [
    "C100_one_ledger",
    "C100_wrong_kind"
   ],
   "note": ""
  },
  {
   "property": "C101",
   "status": "proved",
   "theorems": [
    "C101_unnamed_token",
    "C101_unnamed_history",
    "C101_no_token_from_nothing"
   ],
   "note": ""
  },
  {
   "property": "C102",
   "status": "partial",
   "theorems": [
    "C102_lockout_refuted",
    "C102_lockout_permanent",
    "C102_last_holder_partial"
   ],
   "note": "False of the code: the last administrator can revoke their own permission, for ever (refuted); proved that this is the only way."
  },
  {
   "property": "C103",
   "status": "partial",
   "theorems": [
    "C103_anonymous_owner_refuted",
    "C103_anonymous_owner_partial"
   ],
   "note": "False of the code: a mint accepts the anonymous account (refuted); proved for histories without such a mint and without transfer_from to a subaccount of the anonymous principal."
  },
  {
   "property": "C104",
   "status": "partial",
   "theorems": [
    "C104_limiter_memory_refuted",
    "C104_limiter_memory_partial"
   ],
   "note": "False of the code: the limiter remembers every id ever named, by anybody (refuted); proved that it remembers at most five times for each id."
  },
  {
   "property": "C105",
   "status": "proved",
   "theorems": [
    "C105_upload_completes",
    "C105_served"
   ],
   "note": ""
  },
  {
   "property": "C106",
   "status": "proved",
   "theorems": [
    "C106_rounds",
    "C106_catches_up"
   ],
   "note": ""
  },
  {
   "property": "C107",
   "status": "partial",
   "theorems": [
    "C107_transfer_from_named_account_refuted",
    "C107_subaccount_ignored_partial"
   ],
   "note": "False of the code: the from_subaccount is never read (refuted); proved that it makes no difference at all."
  },
  {
   "property": "C108",
   "status": "partial",
   "theorems": [
    "C108_memo_limit_refuted",
    "C108_memo_limit_partial"
   ],
   "note": "False of the code: the ICRC-37 calls do not check memos (refuted); proved for transfers by owners and mints."
  },
  {
   "property": "C109",
   "status": "partial",
   "theorems": [
    "C109_expired_refused_refuted",
    "C109_expired_authorizes_nothing_partial"
   ],
   "note": "False of the code: it is accepted and listed (refuted); proved that it authorizes nothing."
  },
  {
   "property": "C110",
   "status": "partial",
   "theorems": [
    "C110_gift_is_final_refuted",
    "C110_gift_is_final_partial"
   ],
   "note": "False of the code: an approval of oneself given before survives icrc7_transfer (refuted); proved for senders without such approvals."
  },
  {
   "property": "C111",
   "status": "partial",
   "theorems": [
    "C111_renew_refuted",
    "C111_renew_partial"
   ],
   "note": "False of the code at the limit (refuted); proved that an accepted approval replaces exactly the listed one."
  },
  {
   "property": "C112",
   "status": "partial",
   "theorems": [
    "C112_burn_leaves_nothing_refuted",
    "C112_burned_gone_partial"
   ],
   "note": "False of the code: approvals stay listed and confirmed, metadata stay stored (refuted); proved for owner, metadata and token queries, for ever."
  },
  {
   "property": "C113",
   "status": "partial",
   "theorems": [
    "C113_never_trap_refuted",
    "C113_never_trap_partial"
   ],
   "note": "False of the code: empty revocation, settings from 2^32 (refuted); proved for settings in range, fewer than 2^64 tokens ever minted and non-empty revocations."
  },
  {
   "property": "C114",
   "status": "partial",
   "theorems": [
    "C114_collection_calls_free_refuted",
    "C114_collection_calls_free_partial"
   ],
   "note": "False of the code: one shared window (refuted); proved that calls about single tokens and calls older than 60 ms do not interfere."
  },
  {
   "property": "C115",
   "status": "partial",
   "theorems": [
    "C115_paging_under_revocation_refuted",
    "C115_pages_partial"
   ],
   "note": "False of the code: paging restarts when the spender named is gone (refuted); proved for spenders still listed."
  },
  {
   "property": "C116",
   "status": "partial",
   "theorems": [
    "C116_revoke_only_existing_refuted",
    "C116_revoke_only_existing_partial",
    "C116_never_approved"
   ],
   "note": "False of the code: success although the spender has no approval (refuted); proved that the answer ApprovalDoesNotExist is always true. C116_never_approved: where no approval was ever asked for, no revocation succeeds."
  },
  {
   "property": "C117",
   "status": "partial",
   "theorems": [
    "C117_supply_below_cap_refuted",
    "C117_supply_below_cap_partial"
   ],
   "note": "False of the code: the cap can be lowered below the supply (refuted); proved for histories that never do so."
  },
  {
   "property": "C118",
   "status": "partial",
   "theorems": [
    "C118_update_checks_refuted",
    "C118_limits_positive_partial"
   ],
   "note": "False of the code for transaction window and logo (refuted); proved for the approval limits."
  },
  {
   "property": "C119",
   "status": "partial",
   "theorems": [
    "C119_dialogue",
    "C119_entered_partial",
    "C119_spaces_refuted"
   ],
   "note": "Proved: the dialogue yields exactly the entries its lines describe. False for texts that begin or end with white space (refuted)."
  },
  {
   "property": "C120",
   "status": "partial",
   "theorems": [
    "C120_ends_refuted",
    "C120_forever_partial"
   ],
   "note": "False of the code: a yes/no question at the end of the input is repeated for ever (refuted); proved that this is the only way."
  },
  {
   "property": "C121",
   "status": "partial",
   "theorems": [
    "C121_document",
    "C121_flags",
    "C121_dialogue",
    "C121_nonfinite_refuted"
   ],
   "note": "Proved in both directions; false for values read as non-finite numbers, which become null (refuted)."
  },
  {
   "property": "C122",
   "status": "proved",
   "theorems": [
    "C122_base64_exact",
    "C122_base64_one_text"
   ],
   "note": ""
  },
  {
   "property": "C123",
   "status": "partial",
   "theorems": [
    "C123_minted",
    "C123_failed",
    "C123_name_refuted",
    "C123_name_partial"
   ],
   "note": "Proved for account and metadata; false for the name, which is ignored (refuted)."
  },
  {
   "property": "C124",
   "status": "partial",
   "theorems": [
    "C124_grant",
    "C124_revoke",
    "C124_errors",
    "C124_has",
    "C124_list_partial",
    "C124_once_refuted",
    "C124_none_refuted"
   ],
   "note": "Proved for grant, revoke and has; list prints duplicates and fails for principals without a record (refuted)."
  },
  {
   "property": "C125",
   "status": "partial",
   "theorems": [
    "C125_upload_partial",
    "C125_upload_refuted",
    "C125_command_succeeds",
    "C125_stays_partial",
    "C125_again",
    "C125_empty_refuted"
   ],
   "note": "False of the code: refused announcements are not noticed (refuted), empty files cannot be uploaded (refuted). Proved for accepted announcements without cancellation, that it stays so, and that the command succeeds for non-empty files when nothing is in its way."
  },
  {
   "property": "C126",
   "status": "partial",
   "theorems": [
    "C126_paths",
    "C126_document_partial",
    "C126_again_refuted"
   ],
   "note": "Proved for accepted announcements and as long as no upload differing in the leading slash is finished; repeating the command fails (refuted)."
  },
  {
   "property": "C127",
   "status": "proved",
   "theorems": [
    "C127_depends_on_its_token"
   ],
   "note": "For single items. The log may answer differently only in the number of the new block."
  },
  {
   "property": "C128",
   "status": "partial",
   "theorems": [
    "C128_order_partial",
    "C128_order_refuted",
    "C128_as_if_alone_partial",
    "C128_any_order_partial",
    "C128_batch_order_partial"
   ],
   "note": "False of the code for two delegated transfers under collection approvals of one owner (refuted, a consequence of C26). Proved for any two other calls, for sequences of any length without delegated transfers in any order, and for the items of one batch of transfers within the batch limit."
  },
  {
   "property": "C129",
   "status": "partial",
   "theorems": [
    "C129_step_partial",
    "C129_history_partial",
    "C129_same_answers_partial",
    "C129_same_answers_refuted"
   ],
   "note": "False of the code when the log answers that a transfer is a duplicate: the same answer comes with and without a change of owner (refuted). Proved for all calls and histories in which the log never gives that answer and the clock does not run backwards."
  },
  {
   "property": "C130",
   "status": "partial",
   "theorems": [
    "C130_agree_partial",
    "C130_agree_refuted"
   ],
   "note": "False of the code after a lost reply, a trapping continuation, an upgrade while a call waits, or a collection (refuted, four witnesses). Proved for all executions without these four, whatever else fails."
  },
  {
   "property": "C131",
   "status": "partial",
   "theorems": [
    "C131_dropped_for_ever",
    "C131_finalized_unfinished",
    "C131_recover_refuted",
    "C131_recover_partial"
   ],
   "note": "False of the code: an upload dropped by the storage canister blocks its path for ever (C131_dropped_for_ever, refuted). Proved while ledger and storage canister agree."
  },
  {
   "property": "C132",
   "status": "partial",
   "theorems": [
    "C132_reports_partial",
    "C132_init_refuted",
    "C132_choice"
   ],
   "note": "False of the code for init_upload, which never reports that the file exists (refuted). Proved for store_chunk, finalize_upload and cancel_upload; C132_choice relates the choice of canister to the model of C50."
  },
  {
   "property": "C133",
   "status": "proved",
   "theorems": [
    "C133_metadata",
    "C133_token_approvals",
    "C133_collection_approvals"
   ],
   "note": "Messages are assumed to be of their Candid types (typed_msg). A metadata map of 2^64 entries or more is excluded by hypothesis; it would not fit into a canister. The B-tree of the external crate ic-stable-structures is taken as a map from keys to bytes."
  },
  {
   "property": "C134",
   "status": "proved",
   "theorems": [
    "C134_split",
    "C134_join",
    "C134_pieces"
   ],
   "note": "The successive calls come from the same caller at the same time; the block log is the oracle e_log, asked in the same order."
  },
  {
   "property": "C135",
   "status": "proved",
   "theorems": [
    "C135_accepted"
   ],
   "note": "serde_json is an oracle; the hypothesis says it reads back what it printed up to the numbers. Start-up must succeed for the second command too (starts)."
  },
  {
   "property": "C136",
   "status": "partial",
   "theorems": [
    "C136_requests",
    "C136_reading",
    "C136_files",
    "C136_root_key",
    "C136_addresses",
    "C136_offline_partial",
    "C136_offline_refuted"
   ],
   "note": "The last part (independence of the network) is refuted for the default network 'local' and proved for 'ic'. Parsing of the command line by clap is not modelled."
  },
  {
   "property": "C137",
   "status": "partial",
   "theorems": [
    "C137_owner_partial",
    "C137_unspent_partial",
    "C137_token_listing_refuted"
   ],
   "note": "Blocks as the index sees them are related to logged transactions by encodes, as in C65; owners are compared by the text of the account. Token ids below the next id to be handed out. The index is assumed to be up to date, its ledger honest and its updates not overlapping."
  },
  {
   "property": "C138",
   "status": "proved",
   "theorems": [
    "C138_index",
    "C138_cache"
   ],
   "note": "Lists of 2^64 blocks are excluded (they would not fit into memory). The stable map itself (ic-stable-structures) is trusted to return the bytes it was given."
  },
  {
   "property": "C139",
   "status": "partial",
   "theorems": [
    "C139_message_partial",
    "C139_message_refuted"
   ],
   "note": "False as stated (C139_message_refuted). C139_message_partial is exact: same text if and only if same method and same [told]."
  },
  {
   "property": "C140",
   "status": "partial",
   "theorems": [
    "C140_has_message_partial",
    "C140_no_message",
    "C140_has_message_refuted"
   ],
   "note": "False for burn_nft (C140_has_message_refuted), true for every other call (C140_has_message_partial). C140_no_message: no management call has one."
  },
  {
   "property": "C141",
   "status": "proved",
   "theorems": [
    "C141_headers",
    "C141_features"
   ],
   "note": "Header fields added by the external router (location, certificate) are the target and what the crate documents; the name of the certificate expression header is a hypothesis."
  },
  {
   "property": "C142",
   "status": "proved",
   "theorems": [
    "C142_interrupted",
    "C142_file",
    "C142_repeat"
   ],
   "note": "The storage canisters are the ones of C125 (any that accept a file only if its hash is the announced one); that they accept a chunk again is a hypothesis about them."
  },
  {
   "property": "C143",
   "status": "partial",
   "theorems": [
    "C143_success_partial",
    "C143_completed",
    "C143_success_refuted"
   ],
   "note": "False of the code: refused announcements and chunks are not noticed (refuted, as C75). Proved for every other request, and that a granted last call means success."
  },
  {
   "property": "C144",
   "status": "partial",
   "theorems": [
    "C144_wait_partial",
    "C144_wait_refuted"
   ],
   "note": "False of the code in the unit the words name (refuted): the number is one of nanoseconds, called milliseconds. Proved exact in nanoseconds."
  },
  {
   "property": "C145",
   "status": "proved",
   "theorems": [
    "C145_tokens",
    "C145_tokens_of"
   ],
   "note": "Page sizes of 0 are excluded by a hypothesis, see C29 and C30. The bound on the ids is only needed for the reading to end."
  },
  {
   "property": "C146",
   "status": "partial",
   "theorems": [
    "C146_growing_partial",
    "C146_twice_refuted"
   ],
   "note": "Proved for filters on tokens, types and accounts that no block names in two fields; otherwise blocks are read twice (refuted)."
  },
  {
   "property": "C147",
   "status": "partial",
   "theorems": [
    "C147_steady_partial",
    "C147_cancelled_refuted"
   ],
   "note": "False of the code (refuted, for every order of iteration). Proved for uploads that keep their position."
  },
  {
   "property": "C148",
   "status": "proved",
   "theorems": [
    "C148_waiting_caller_holds",
    "C148_own_part",
    "C148_nobody_acted"
   ],
   "note": "Owners and approvals of tokens are not given by permissions at all: C04, C05, C20."
  },
  {
   "property": "C149",
   "status": "partial",
   "theorems": [
    "C149_step",
    "C149_stranger",
    "C149_office_quiet",
    "C149_purge_partial",
    "C149_reads",
    "C149_busy_refuted"
   ],
   "note": "False of the code through the management lock alone (refuted: a burn is refused while an upload waits). Proved when no other management call comes while the lock is held. Redirections of finalized files are public by design, see C79."
  },
  {
   "property": "C150",
   "status": "partial",
   "theorems": [
    "C150_repeat_partial",
    "C150_upload_done",
    "C150_chunk_again",
    "C150_mint_refuted",
    "C150_same_token_refuted"
   ],
   "note": "False of minting (refuted) and of a batch that names the same token twice (refuted: the rate limiter may stop the repetition half-way). Proved for every other call and batch."
  },
  {
   "property": "C151",
   "status": "proved",
   "theorems": [
    "C151_step",
    "C151_history",
    "C151_install",
    "C151_reads",
    "C151_approval_lists"
   ],
   "note": "Storage canisters are not renamed: their text is part of the redirections. The order in which a hash map lists approvals is external; the entries and the pages made of them are renamed."
  },
  {
   "property": "C152",
   "status": "proved",
   "theorems": [
    "C152_step",
    "C152_history",
    "C152_install",
    "C152_reads",
    "C152_collector"
   ],
   "note": "The shifted clock plus the permitted drift plus the transaction window must stay below 2^64 (hypothesis fits): the additions of the code wrap there."
  },
  {
   "property": "C153",
   "status": "partial",
   "theorems": [
    "C153_step",
    "C153_history",
    "C153_reads",
    "C153_is_approved_refuted",
    "C153_is_approved_partial"
   ],
   "note": "The transaction log is outside the ledger; it is assumed not to tell the two ways apart (hypothesis same_log). icrc37_is_approved is the exception: refuted for an account that approved itself for the collection, and proved (_partial) where there is no such approval."
  },
  {
   "property": "C154",
   "status": "proved",
   "theorems": [
    "C154_step",
    "C154_history",
    "C154_reads"
   ],
   "note": "The reads of the permissions themselves tell of course what is permitted; has_permission stays true where it was true."
  },
  {
   "property": "C155",
   "status": "partial",
   "theorems": [
    "C155_step",
    "C155_history",
    "C155_huge_refuted"
   ],
   "note": "Creation time window, drift and the atomic rule are the same in both settings (they are no limits in this sense); limits of 2^32 or more are refuted (C155_huge_refuted)."
  },
  {
   "property": "C156",
   "status": "proved",
   "theorems": [
    "C156_step",
    "C156_history",
    "C156_install",
    "C156_reads"
   ],
   "note": "Length-preserving on memos (the limit reads the length) and preserving whether a value can be stored; the keys of metadata stay, since lists of metadata are ordered by them; the log is an oracle that answers alike for the replaced blocks."
  },
  {
   "property": "C157",
   "status": "partial",
   "theorems": [
    "C157_behind",
    "C157_lists",
    "C157_filtered",
    "C157_unfiltered",
    "C157_newest",
    "C157_overlap_refuted"
   ],
   "note": "Rounds of reading must not overlap (refuted otherwise: C157_overlap_refuted), filtered pages below 2^32, unfiltered ones within the height of the ledger, newest first within what was read."
  },
  {
   "property": "C158",
   "status": "partial",
   "theorems": [
    "C158_step",
    "C158_history",
    "C158_clean",
    "C158_room_refuted"
   ],
   "note": "The rest of the ledger (including rate limiter windows) must be equal; answers refused for the number of approvals are excepted, and that exception is necessary (C158_room_refuted). Listings of approvals do show the expired ones."
  },
  {
   "property": "C159",
   "status": "partial",
   "theorems": [
    "C159_step",
    "C159_refused",
    "C159_history",
    "C159_limiter_refuted",
    "C159_log_refuted"
   ],
   "note": "The calls left out must find a log that takes entries (necessary: C159_log_refuted); the calls kept must not meet the rate limiter or the limit of approvals in either history (necessary: C159_limiter_refuted, C158_room_refuted)."
  },
  {
   "property": "C160",
   "status": "partial",
   "theorems": [
    "C160_step",
    "C160_history",
    "C160_reads",
    "C160_pages",
    "C160_later",
    "C160_exchange",
    "C160_zero_refuted"
   ],
   "note": "The renumbering fixes 0 (necessary: C160_zero_refuted) and maps the numbers up to a bound L below 2^64 (larger numbers cannot be stored with metadata or approvals); calls that mint stay within L."
  },
  {
   "property": "C161",
   "status": "partial",
   "theorems": [
    "C161_keeps",
    "C161_minted",
    "C161_received_refuted"
   ],
   "note": "C161_received_refuted: a token received by icrc7_transfer comes with the approvals of the giver (C06), so the claim for the whole history is made for minted tokens."
  },
  {
   "property": "C162",
   "status": "proved",
   "theorems": [
    "C162_step",
    "C162_history",
    "C162_installed"
   ],
   "note": "An upper bound. That an approval for a collection survives its use, as the standard asks, does not hold (C26): the first transfer removes all approvals for the collection of the account."
  },
  {
   "property": "C163",
   "status": "partial",
   "theorems": [
    "C163_chain_partial",
    "C163_life_partial",
    "C163_last_partial",
    "C163_minted_refuted",
    "C163_unlogged_refuted"
   ],
   "note": "False in full: C163_minted_refuted (no metadata in mint blocks), C163_unlogged_refuted (a refused update changes the metadata). The partial theorems assume that the log refuses no update and start from the metadata of the mint request."
  },
  {
   "property": "C164",
   "status": "proved",
   "theorems": [
    "C164_step",
    "C164_history",
    "C164_installed",
    "C164_kept",
    "C164_gone"
   ],
   "note": "Safety only: the rules say what may happen, not that an enabled rule can always be carried out (see C83, C84). Metadata, settings, uploads and the log are not part of the machine."
  },
  {
   "property": "C165",
   "status": "partial",
   "theorems": [
    "C165_covers_partial",
    "C165_holding_partial",
    "C165_first_refuted",
    "C165_used_up_refuted"
   ],
   "note": "False in full: C165_first_refuted (a principal without a token is refused), C165_used_up_refuted (the first token moved by a spender ends the approval). The partial theorems cover everything else, tokens received later included."
  },
  {
   "property": "C166",
   "status": "partial",
   "theorems": [
    "C166_step_partial",
    "C166_bound_partial",
    "C166_metadata_refuted"
   ],
   "note": "False for metadata (C166_metadata_refuted: a refused mint leaves them). The partial theorems bound tokens and both kinds of approvals by the blocks of their kinds."
  },
  {
   "property": "C167",
   "status": "proved",
   "theorems": [
    "C167_permissions",
    "C167_supply",
    "C167_metadata",
    "C167_settings",
    "C167_uploads"
   ],
   "note": "An upgrade is that of the same code: a controller of the canister can still install other code. Uploads need that no upload call is under way at that moment."
  },
  {
   "property": "C168",
   "status": "partial",
   "theorems": [
    "C168_sum_refuted",
    "C168_sum_partial"
   ],
   "note": "Fails after a burn, which leaves the token in the index that icrc7_balance_of counts. Proved: the exact sum, and equality as long as nothing was burned."
  },
  {
   "property": "C169",
   "status": "partial",
   "theorems": [
    "C169_own_doing_refuted",
    "C169_own_doing_partial"
   ],
   "note": "Fails because icrc7_transfer keeps the approvals of the giver (C06). Proved: the approval was given by the holder at that time, no transfer_from has moved the token since, and if the holder has changed, then by icrc7_transfer."
  },
  {
   "property": "C170",
   "status": "partial",
   "theorems": [
    "C170_still_served",
    "C170_same_address_partial",
    "C170_once_partial",
    "C170_same_address_refuted"
   ],
   "note": "That the file is served for ever is proved. That its address stays fails when the file is uploaded again under the other spelling of its path; proved that nothing else changes it and that it changes once at most."
  },
  {
   "property": "C171",
   "status": "partial",
   "theorems": [
    "C171_approve_tokens",
    "C171_approve_collection",
    "C171_transfer_from",
    "C171_transfer_partial",
    "C171_revoke_collection_partial",
    "C171_revoke_tokens_refuted"
   ],
   "note": "Proved without condition for approvals and delegated transfers. Fails for icrc37_revoke_token_approvals, where the rate limiter counts messages; for transfers and collection revocations proved for lists within the batch limit."
  },
  {
   "property": "C172",
   "status": "partial",
   "theorems": [
    "C172_giver_partial",
    "C172_receiver_partial",
    "C172_receiver_refuted"
   ],
   "note": "Fails for accounts with a subaccount, under which the index lists nothing (C65). Proved for all accounts with the default subaccount."
  },
  {
   "property": "C173",
   "status": "partial",
   "theorems": [
    "C173_token",
    "C173_collection_partial",
    "C173_collection_refuted"
   ],
   "note": "Proved in full for approvals of tokens. For collections it fails because a transfer_from by any spender clears all collection approvals of the account (C26); proved that nothing else does."
  },
  {
   "property": "C174",
   "status": "proved",
   "theorems": [
    "C174_chain",
    "C174_acts",
    "C174_tokens",
    "C174_circle"
   ],
   "note": ""
  },
  {
   "property": "C175",
   "status": "partial",
   "theorems": [
    "C175_books_refuted",
    "C175_books_partial",
    "C175_between_partial",
    "C175_reported_refuted",
    "C175_reported_partial",
    "C175_token"
   ],
   "note": "Fails after a mint of several tokens that the log cut off (C11), and the reported balance counts tokens the account burned (C31). Proved for all histories without such a mint; for the reported balance with the burned tokens added. For every single token it is proved without condition, in its papers from the last mint told on (C175_token)."
  },
  {
   "property": "C176",
   "status": "partial",
   "theorems": [
    "C176_custody_refuted",
    "C176_custody_partial",
    "C176_since_mint"
   ],
   "note": "Fails after a mint of several tokens that the log cut off (C11): its first blocks remain and the numbers are given out again. Proved for all histories without such a mint, and for all reachable states from the last mint told on (C176_since_mint)."
  }
 ]
}