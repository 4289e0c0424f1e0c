{
 "claims": [
  {
   "property": "C01",
   "status": "proved",
   "theorems": [
    "C01_supply_is_sum_of_balances"
   ],
   "note": ""
  },
  {
   "property": "C02",
   "status": "proved",
   "theorems": [
    "C02_log_determines_balances",
    "C51_fetched_log_determines_balances"
   ],
   "note": ""
  },
  {
   "property": "C03",
   "status": "proved",
   "theorems": [
    "C03_log_determines_live_allowances",
    "C51_fetched_log_determines_allowances"
   ],
   "note": ""
  },
  {
   "property": "C04",
   "status": "proved",
   "theorems": [
    "C04_log_append_only"
   ],
   "note": ""
  },
  {
   "property": "C05",
   "status": "proved",
   "theorems": [
    "C05_served_blocks_are_chained",
    "C05_first_served_block",
    "C05_hash_chain"
   ],
   "note": ""
  },
  {
   "property": "C06",
   "status": "proved",
   "theorems": [
    "C06_tip_certificate"
   ],
   "note": ""
  },
  {
   "property": "C07",
   "status": "proved",
   "theorems": [
    "C07_at_most_once",
    "C07_never_accepted_twice"
   ],
   "note": ""
  },
  {
   "property": "C08",
   "status": "proved",
   "theorems": [
    "C08_retry_is_duplicate",
    "C08_retry_names_block"
   ],
   "note": ""
  },
  {
   "property": "C09",
   "status": "proved",
   "theorems": [
    "C09_duplicate_is_honest",
    "C09_duplicate_has_created_at"
   ],
   "note": ""
  },
  {
   "property": "C10",
   "status": "proved",
   "theorems": [
    "C10_recorded_in_window",
    "C10_time_errors_truthful",
    "C10_outside_window_rejected"
   ],
   "note": ""
  },
  {
   "property": "C11",
   "status": "proved",
   "theorems": [
    "C11_rejected_calls_change_nothing"
   ],
   "note": ""
  },
  {
   "property": "C12",
   "status": "proved",
   "theorems": [
    "C12_transfer_effect"
   ],
   "note": ""
  },
  {
   "property": "C13",
   "status": "partial",
   "theorems": [
    "C13_funded_transfer_succeeds_partial",
    "C13_new_funded_transfer_succeeds_partial",
    "C13_self_transfer_refuted",
    "C13_exactly_when"
   ],
   "note": "Proved under one more hypothesis: for a self-transfer, balance + amount < 2^128. Without it the property is false (C13_self_transfer_refuted): the credit is checked before the debit. C13_exactly_when gives both sides: the transfer is accepted unless this corner holds, and in the corner it is refused with nothing changed."
  },
  {
   "property": "C14",
   "status": "proved",
   "theorems": [
    "C14_transfer_from_effect"
   ],
   "note": ""
  },
  {
   "property": "C15",
   "status": "proved",
   "theorems": [
    "C15_only_owner_or_spender_lowers"
   ],
   "note": ""
  },
  {
   "property": "C16",
   "status": "proved",
   "theorems": [
    "C16_approve_effect"
   ],
   "note": ""
  },
  {
   "property": "C17",
   "status": "proved",
   "theorems": [
    "C17_expected_allowance"
   ],
   "note": ""
  },
  {
   "property": "C18",
   "status": "proved",
   "theorems": [
    "C18_spending_needs_live_allowance",
    "C18_expired_cannot_be_spent",
    "C18_log_spends_unexpired"
   ],
   "note": ""
  },
  {
   "property": "C19",
   "status": "partial",
   "theorems": [
    "C19_exactly_when",
    "C19_listed_is_usable",
    "C19_reported_is_usable_partial",
    "C19_spends_are_covered",
    "C19_reported_at_expiry_refuted",
    "C19_refusals_are_truthful"
   ],
   "note": "Proved for every time other than the expiry of the approval itself. At that very nanosecond icrc2_allowance still reports an allowance that can no longer be spent (C19_reported_at_expiry_refuted). C19_exactly_when: in that case nothing is usable."
  },
  {
   "property": "C20",
   "status": "partial",
   "theorems": [
    "C20_exactly_when",
    "C20_queue_matches_approvals",
    "C20_pruning",
    "C20_inconsistency_messages_partial",
    "C20_message_logged_refuted"
   ],
   "note": "Queue and pruning are proved in full. The clause on log messages is false: approving 0 where there is no approval logs one of them (C20_message_logged_refuted). Proved: it is the only one that can occur, apart from hash collisions, and it is logged exactly by an accepted approval of 0 for a pair without a stored approval (C20_exactly_when)."
  },
  {
   "property": "C21",
   "status": "proved",
   "theorems": [
    "C21_deposit_effect",
    "C21_deposit_all_or_nothing"
   ],
   "note": ""
  },
  {
   "property": "C22",
   "status": "proved",
   "theorems": [
    "C22_burn_and_pay",
    "C22_no_other_payments",
    "C22_delivery_answered",
    "C22_answered_once"
   ],
   "note": ""
  },
  {
   "property": "C23",
   "status": "proved",
   "theorems": [
    "C23_immediate_failure_refunded",
    "C23_failed_delivery_outcome"
   ],
   "note": "Including the trap of the call-back (callback_corner), in which nothing is refunded; C25 is the claim that this never happens."
  },
  {
   "property": "C24",
   "status": "proved",
   "theorems": [
    "C24_success_reply",
    "C24_retry_names_canister",
    "C24_failed_creation_outcome"
   ],
   "note": "As C23. Success and retries are C24_success_reply and C24_retry_names_canister."
  },
  {
   "property": "C25",
   "status": "partial",
   "theorems": [
    "C25_refund_completes_partial",
    "C25_trap_only_in_corner",
    "C25_refund_lost_refuted"
   ],
   "note": "False in a corner (C25_refund_lost_refuted). Proved: the call-back completes outside that corner, and a call-back that traps is in it (C25_trap_only_in_corner). Apart from overflow at 2^128 cycles, the end of the 64-bit clock and hash collisions, the corner needs the current approval to expire at that very nanosecond while more than 200 expired approvals are still stored."
  },
  {
   "property": "C26",
   "status": "partial",
   "theorems": [
    "C26_allowance_changes_partial",
    "C26_revoked_allowance_returns_refuted",
    "C26_new_allowance_expires_refuted",
    "C26_stays_as_set",
    "C26_revocation_sticks"
   ],
   "note": "False (C26_revoked_allowance_returns_refuted, C26_new_allowance_expires_refuted): a failing withdraw_from or create_canister_from in flight restores the allowance. Proved: besides the owner's approvals and the spender's spends only such a restoration changes an allowance (C26_allowance_changes_partial); with no such call in flight an allowance stays as set over every history (C26_stays_as_set), and a revoked one stays revoked whatever the spender tries (C26_revocation_sticks)."
  },
  {
   "property": "C27",
   "status": "proved",
   "theorems": [
    "C27_tokens_are_backed",
    "C27_untruthful_answer_refuted"
   ],
   "note": ""
  },
  {
   "property": "C28",
   "status": "proved",
   "theorems": [
    "C28_controllers"
   ],
   "note": ""
  },
  {
   "property": "C29",
   "status": "partial",
   "theorems": [
    "C29_exactly_which",
    "C29_served_blocks_are_right",
    "C29_wanted_blocks_are_served_partial",
    "C29_single_range_partial",
    "C29_wrapping_range_refuted",
    "C29_long_range_refuted"
   ],
   "note": "Soundness and the limit are proved for all requests. Completeness needs start + length < 2^64 and length < 2^64; otherwise it is false (C29_wrapping_range_refuted, C29_long_range_refuted). C29_exactly_which gives the served identifiers for every request and configuration (log shorter than 2^64), the corners included."
  },
  {
   "property": "C30",
   "status": "proved",
   "theorems": [
    "C30_paging_ends",
    "C30_pages_list_every_live_allowance_once"
   ],
   "note": ""
  },
  {
   "property": "C31",
   "status": "proved",
   "theorems": [
    "C31_upgrade_keeps_the_ledger",
    "C31_upgrade_is_invisible"
   ],
   "note": ""
  },
  {
   "property": "C32",
   "status": "proved",
   "theorems": [
    "C32_queries",
    "C32_default_subaccount"
   ],
   "note": ""
  },
  {
   "property": "C33",
   "status": "proved",
   "theorems": [
    "C33_denied_parties"
   ],
   "note": ""
  },
  {
   "property": "C34",
   "status": "proved",
   "theorems": [
    "C34_blocks_well_formed"
   ],
   "note": ""
  },
  {
   "property": "C35",
   "status": "proved",
   "theorems": [
    "C35_block_round_trip",
    "C35_recorded_blocks_round_trip"
   ],
   "note": ""
  },
  {
   "property": "C36",
   "status": "proved",
   "theorems": [
    "C36_supported",
    "C36_cbor_round_trip",
    "C36_generic_round_trip",
    "C36_converted_is_sorted",
    "C36_generic_supported"
   ],
   "note": ""
  },
  {
   "property": "C37",
   "status": "proved",
   "theorems": [
    "C37_memo_bytes",
    "C37_withdraw_memo",
    "C37_burns_name_receiver"
   ],
   "note": ""
  },
  {
   "property": "C38",
   "status": "proved",
   "theorems": [
    "C38_leb128",
    "C38_certified_index"
   ],
   "note": ""
  },
  {
   "property": "C39",
   "status": "proved",
   "theorems": [
    "C39_traps",
    "C39_no_spender_no_trap"
   ],
   "note": ""
  },
  {
   "property": "C40",
   "status": "proved",
   "theorems": [
    "C40_wrong_fee_rejected",
    "C40_bad_fee_answer",
    "C40_bad_fee_answer_from"
   ],
   "note": ""
  },
  {
   "property": "C41",
   "status": "proved",
   "theorems": [
    "C41_initial_balances",
    "C41_upgrade_argument_refused"
   ],
   "note": ""
  },
  {
   "property": "C42",
   "status": "proved",
   "theorems": [
    "C42_spends_bounded_by_approval"
   ],
   "note": ""
  },
  {
   "property": "C43",
   "status": "partial",
   "theorems": [
    "C43_block_types_partial",
    "C43_plain_transfer_refuted"
   ],
   "note": "False for plain transfers: 1xfer is not advertised (C43_plain_transfer_refuted). Proved for all other blocks."
  },
  {
   "property": "C44",
   "status": "partial",
   "theorems": [
    "C44_exactly_which",
    "C44_stored_balances_partial",
    "C44_empty_account_stored_refuted"
   ],
   "note": "False: crediting 0 leaves an empty entry (C44_empty_account_stored_refuted). Proved when no block credits 0. C44_exactly_which: the table holds exactly the accounts with funds and those whose last movement was a credit."
  },
  {
   "property": "C45",
   "status": "proved",
   "theorems": [
    "C45_default_subaccount_not_deduplicated_refuted",
    "C45_respelled_transfer_executes"
   ],
   "note": "C45_respelled_transfer_executes is the general statement; the _refuted theorem is a reachable counterexample to what one would expect."
  },
  {
   "property": "C46",
   "status": "proved",
   "theorems": [
    "C46_refunded_withdrawal_retry_refuted",
    "C46_retry_after_any_outcome"
   ],
   "note": "C46_retry_after_any_outcome is the general statement; the _refuted theorem is a reachable counterexample to what one would expect."
  },
  {
   "property": "C47",
   "status": "proved",
   "theorems": [
    "C47_tables_agree",
    "C47_same_transactions",
    "C47_pruning"
   ],
   "note": ""
  },
  {
   "property": "C48",
   "status": "proved",
   "theorems": [
    "C48_transaction_hash",
    "C48_block_hash",
    "C48_duplicate_is_identical"
   ],
   "note": ""
  },
  {
   "property": "C49",
   "status": "proved",
   "theorems": [
    "C49_certificate_pins_log",
    "C49_log_is_accepted",
    "C49_same_certificate_same_log"
   ],
   "note": ""
  },
  {
   "property": "C50",
   "status": "proved",
   "theorems": [
    "C50_answer"
   ],
   "note": ""
  },
  {
   "property": "C51",
   "status": "proved",
   "theorems": [
    "C51_fetched_log_determines_balances",
    "C51_fetched_log_determines_supply",
    "C51_fetched_log_determines_allowances",
    "C51_log_can_be_fetched"
   ],
   "note": ""
  },
  {
   "property": "C52",
   "status": "proved",
   "theorems": [
    "C52_verified_log_determines_ledger"
   ],
   "note": ""
  },
  {
   "property": "C53",
   "status": "proved",
   "theorems": [
    "C53_idle_owner_loses_at_most_allowances",
    "C53_no_approvals_no_loss"
   ],
   "note": ""
  },
  {
   "property": "C54",
   "status": "proved",
   "theorems": [
    "C54_log_is_the_history",
    "C54_no_block_without_a_call"
   ],
   "note": ""
  },
  {
   "property": "C55",
   "status": "proved",
   "theorems": [
    "C55_fee",
    "C55_memo",
    "C55_blocks_per_request",
    "C55_index",
    "C55_names"
   ],
   "note": ""
  },
  {
   "property": "C56",
   "status": "proved",
   "theorems": [
    "C56_order_is_irrelevant",
    "C56_expiring_allowance_refuted"
   ],
   "note": ""
  },
  {
   "property": "C57",
   "status": "proved",
   "theorems": [
    "C57_config_survives_storage",
    "C57_config_is_what_was_set"
   ],
   "note": ""
  },
  {
   "property": "C58",
   "status": "proved",
   "theorems": [
    "C58_deposits_are_exact",
    "C58_everyone_is_told",
    "C58_deposit_works",
    "C58_upgrade_forgets_the_ledger"
   ],
   "note": ""
  },
  {
   "property": "C59",
   "status": "proved",
   "theorems": [
    "C59_backlog_is_cleared",
    "C59_nothing_expired_remains"
   ],
   "note": ""
  },
  {
   "property": "C60",
   "status": "proved",
   "theorems": [
    "C60_served_blocks_have_standard_form"
   ],
   "note": ""
  },
  {
   "property": "C61",
   "status": "proved",
   "theorems": [
    "C61_owner_can_withdraw",
    "C61_owner_can_create",
    "C61_owner_can_revoke",
    "C61_spender_can_transfer"
   ],
   "note": ""
  },
  {
   "property": "C62",
   "status": "proved",
   "theorems": [
    "C62_named_canister_was_created",
    "C62_no_invented_canister"
   ],
   "note": ""
  },
  {
   "property": "C63",
   "status": "proved",
   "theorems": [
    "C63_order_of_answers"
   ],
   "note": ""
  },
  {
   "property": "C64",
   "status": "proved",
   "theorems": [
    "C64_each_block_earns_the_fee",
    "C64_backing_grows"
   ],
   "note": ""
  },
  {
   "property": "C65",
   "status": "proved",
   "theorems": [
    "C65_refunds_within_burns",
    "C65_one_refund_per_burn"
   ],
   "note": ""
  },
  {
   "property": "C66",
   "status": "proved",
   "theorems": [
    "C66_listing_while_changing"
   ],
   "note": ""
  },
  {
   "property": "C67",
   "status": "proved",
   "theorems": [
    "C67_metrics_page",
    "C67_other_pages"
   ],
   "note": ""
  },
  {
   "property": "C68",
   "status": "proved",
   "theorems": [
    "C68_creations_are_exact",
    "C68_told_is_final",
    "C68_tokens_are_backed",
    "C68_overstated_refund_refuted",
    "C68_rejected_after_accepting_refuted"
   ],
   "note": ""
  },
  {
   "property": "C69",
   "status": "proved",
   "theorems": [
    "C69_everyone_can_withdraw",
    "C69_each_is_told",
    "C69_cycles_cover_supply"
   ],
   "note": ""
  },
  {
   "property": "C70",
   "status": "proved",
   "theorems": [
    "C70_stored_block_hash",
    "C70_remembered_hash",
    "C70_signed_ints_refuted"
   ],
   "note": ""
  },
  {
   "property": "C71",
   "status": "proved",
   "theorems": [
    "C71_storage_is_bounded",
    "C71_storage_is_paid_for"
   ],
   "note": ""
  },
  {
   "property": "C72",
   "status": "proved",
   "theorems": [
    "C72_witness_bytes",
    "C72_client_learns_tip",
    "C72_client_is_not_fooled"
   ],
   "note": ""
  },
  {
   "property": "C73",
   "status": "proved",
   "theorems": [
    "C73_message_work"
   ],
   "note": ""
  },
  {
   "property": "C74",
   "status": "proved",
   "theorems": [
    "C74_one_execution_per_acceptance",
    "C74_answers_point_to_it",
    "C74_giving_up_is_safe",
    "C74_one_good_moment_suffices"
   ],
   "note": ""
  },
  {
   "property": "C75",
   "status": "proved",
   "theorems": [
    "C75_same_log_same_answer",
    "C75_same_log_same_future",
    "C75_same_log_same_reads",
    "C75_upgrade_unnoticed"
   ],
   "note": "The two exclusions are conditions of the theorems (quiet, distinct_hashes). They are sufficient; whether a quiet moment is also necessary is not settled."
  },
  {
   "property": "C76",
   "status": "proved",
   "theorems": [
    "C76_only_the_named_accounts"
   ],
   "note": ""
  },
  {
   "property": "C77",
   "status": "proved",
   "theorems": [
    "C77_kind_of_a_block",
    "C77_restored_allowance_mark_refuted"
   ],
   "note": "The exception for restored allowances is part of the statement; C77_restored_allowance_mark_refuted shows that the mark on an approval can be forged."
  },
  {
   "property": "C78",
   "status": "proved",
   "theorems": [
    "C78_transfer_from_succeeds",
    "C78_approve_succeeds",
    "C78_outgoing_succeeds",
    "C78_deposit_succeeds"
   ],
   "note": ""
  },
  {
   "property": "C79",
   "status": "proved",
   "theorems": [
    "C79_stopped_midway",
    "C79_nobody_else_notices",
    "C79_never_completed",
    "C79_never_refunded"
   ],
   "note": ""
  },
  {
   "property": "C80",
   "status": "proved",
   "theorems": [
    "C80_ledger_is_its_log",
    "C80_reads_from_the_log"
   ],
   "note": "The two exclusions are conditions of the theorems (smooth: quiet and distinct_hashes, as in C75). The three ways in which an answer may differ are spelled out in agrees."
  },
  {
   "property": "C81",
   "status": "proved",
   "theorems": [
    "C81_receipts_last",
    "C81_numbers_given_out_once",
    "C81_numbers_follow_the_calls"
   ],
   "note": "Duplicate errors name the caller's own transaction up to hash clashes, as in C09; fetching by number assumes that log length plus the request limit is at most 2^64, as in C29."
  },
  {
   "property": "C82",
   "status": "proved",
   "theorems": [
    "C82_books",
    "C82_untouched_account"
   ],
   "note": ""
  },
  {
   "property": "C83",
   "status": "proved",
   "theorems": [
    "C83_stable_memory_is_the_ledger",
    "C83_upgrade_starts_from_stable_memory",
    "C83_stable_memory_determines",
    "C83_log_bytes_append_only",
    "C83_blank_memory",
    "C83_regions_distinct"
   ],
   "note": "The layout of the maps inside their regions belongs to ic-stable-structures and is not modelled; the log and the configuration are modelled as bytes. Hypotheses: hashes have 32 bytes, the configuration is within the ranges of its Rust types."
  },
  {
   "property": "C84",
   "status": "proved",
   "theorems": [
    "C84_allowances_follow"
   ],
   "note": ""
  },
  {
   "property": "C85",
   "status": "proved",
   "theorems": [
    "C85_record_determines",
    "C85_same_record_same_future",
    "C85_plain_log_determines"
   ],
   "note": "The mark on a block (approval given back) is needed for the exact statement: such a block is not followed by a pruning, and a user can write an approval that looks the same. C85_plain_log_determines is the case without such blocks. C75 is the statement for the bare log, with its exclusions."
  },
  {
   "property": "C86",
   "status": "proved",
   "theorems": [
    "C86_answers_can_be_read",
    "C86_answers_mean_one_thing",
    "C86_names_are_numbered",
    "C86_messages_start_with_DIDL"
   ],
   "note": "Candid writer and reader in Candid.v; types of the interface file and values of all answers in Wire.v. The text of an error and the tip's certificate and tree are arbitrary bytes. The reader takes the table in any order; the order the candid crate uses for the table is not claimed."
  },
  {
   "property": "C87",
   "status": "proved",
   "theorems": [
    "C87_update_answers_are_small",
    "C87_blocks_pages_are_bounded",
    "C87_blocks_pages_fit",
    "C87_allowances_pages_are_bounded",
    "C87_blocks_pages_fit_any_limit_refuted"
   ],
   "note": "Lengths are those of the messages of C86, with the table of types of Wire.v (the candid crate may order or share the types differently). Block hashes are 32 bytes long. That any configured limit fits is refuted by the code: nothing bounds it."
  },
  {
   "property": "C88",
   "status": "proved",
   "theorems": [
    "C88_answers_say_by_name",
    "C88_errors_say_by_name",
    "C88_queries_say_by_name",
    "C88_tip_says_by_name"
   ],
   "note": "The client knows the Candid format and the names of the interface file only. Texts are arbitrary bytes; the certificate and the tree are arbitrary bytes here (their meaning is C06 and C49)."
  },
  {
   "property": "C89",
   "status": "proved",
   "theorems": [
    "C89_messages_are_read_by_name",
    "C89_requests_are_understood",
    "C89_requests_differ",
    "C89_other_fields_do_not_matter",
    "C89_messages_are_calls"
   ],
   "note": "The reader models the derived Deserialize and the crate candid's rules for records and optional fields. Not modelled: an optional field of a wrong type (which the crate takes as not given; here the message is not understood), the settings of a new canister other than its controllers, references to functions."
  },
  {
   "property": "C90",
   "status": "proved",
   "theorems": [
    "C90_any_bytes",
    "C90_any_bytes_are_safe",
    "C90_not_understood",
    "C90_queries",
    "C90_calls",
    "C90_receipts",
    "C90_late_receipts"
   ],
   "note": "C90_receipts is about answers given at once, C90_late_receipts about answers that come after an outgoing call."
  },
  {
   "property": "C91",
   "status": "proved",
   "theorems": [
    "C91_audit",
    "C91_can_be_done"
   ],
   "note": ""
  },
  {
   "property": "C92",
   "status": "proved",
   "theorems": [
    "C92_resend",
    "C92_late_resend"
   ],
   "note": "C92_resend: answers given at once, with messages of any bytes as the history. C92_late_resend: first answers that came after an outgoing call; there the history is a run of calls and replies, and the repeated message may have any bytes that ask for the same call."
  }
 ]
}