{"id": "C01", "title": "Total supply equals the sum of balances", "statement": "At every moment icrc1_total_supply returns exactly the sum over all accounts of icrc1_balance_of, and that sum fits in 128 bits.", "quantifier": "every state reachable from any init arguments by any sequence of update calls, call-back replies, traps and upgrades, at any monotone times", "why_tests_cant": "The sum is kept incrementally in a heap cache by many code paths; tests sample a few histories.", "anchors": ["cycles-ledger/src/storage.rs::State::credit", "cycles-ledger/src/storage.rs::State::debit", "cycles-ledger/src/storage.rs::State::compute_total_supply", "cycles-ledger/src/main.rs::icrc1_total_supply"]}
{"id": "C02", "title": "The block log determines every balance", "statement": "Replaying the public ICRC-3 block log (mint credits amount; transfer debits amount plus fee and credits amount; burn debits amount plus the block's effective fee; approve debits the fee) gives exactly the balance icrc1_balance_of reports for every account.", "quantifier": "every reachable state and every account", "why_tests_cant": "An index or auditor relies on this for every history; tests compare only generated short ones.", "anchors": ["cycles-ledger/src/storage.rs::transfer", "cycles-ledger/src/storage.rs::approve", "cycles-ledger/src/storage.rs::mint", "cycles-ledger/src/storage.rs::withdraw", "cycles-ledger/src/storage.rs::create_canister", "cycles-ledger/src/storage.rs::reimburse", "cycles-ledger/src/storage.rs::emit_block"]}
{"id": "C03", "title": "The block log determines every live allowance", "statement": "Replaying the approve blocks and the spends of transfer/burn blocks made by a spender gives exactly the amount and expiry of every allowance that has not expired at the queried time.", "quantifier": "every reachable state, every (owner account, spender account) pair, every query time not before the ledger clock", "why_tests_cant": "Depends on the whole history, on pruning and on refunds of approvals.", "anchors": ["cycles-ledger/src/storage.rs::record_approval", "cycles-ledger/src/storage.rs::use_allowance", "cycles-ledger/src/storage.rs::prune_approvals", "cycles-ledger/src/storage.rs::reimburse_approval", "cycles-ledger/src/storage.rs::allowance"]}
{"id": "C04", "title": "The block log is append-only", "statement": "Once a block has been served under an id, every later icrc3_get_blocks for that id serves the same value, across any calls, traps and upgrades; log_length never decreases.", "quantifier": "every pair of states where the second is reachable from the first; every block id", "why_tests_cant": "A statement about all future histories.", "anchors": ["cycles-ledger/src/storage.rs::emit_block", "cycles-ledger/src/storage.rs::get_blocks", "cycles-ledger/src/main.rs::icrc3_get_blocks"]}
{"id": "C05", "title": "The served log is a hash chain", "statement": "Block 0 has no parent hash, and for every i the parent hash in served block i+1 is the hash of the served value of block i.", "quantifier": "every reachable state and every index in the log", "why_tests_cant": "Holds for all lengths only by induction; a cached parent hash could go stale on some path.", "anchors": ["cycles-ledger/src/storage.rs::process_transaction", "cycles-ledger/src/storage.rs::emit_block", "cycles-ledger/src/storage.rs::Block::hash"]}
{"id": "C06", "title": "The tip certificate always describes the last block", "statement": "Whenever the log is non-empty the certified hash tree contains exactly the LEB128 index of the last block and its hash, and its root is the certified data; also directly after an upgrade.", "quantifier": "every reachable state, including right after upgrades", "why_tests_cant": "The tree is cached on the heap and recomputed on upgrade; tests look at a few points.", "anchors": ["cycles-ledger/src/storage.rs::populate_last_block_hash_and_hash_tree", "cycles-ledger/src/storage.rs::get_tip_certificate", "cycles-ledger/src/storage.rs::compute_last_block_hash_and_hash_tree", "cycles-ledger/src/storage.rs::emit_block"]}
{"id": "C07", "title": "A transaction with created_at_time executes at most once", "statement": "No two blocks of the log carry the same transaction (same operation, accounts, amounts, fee, memo and created_at_time) with created_at_time set.", "quantifier": "every reachable state (any interleaving, any pruning schedule, any monotone clock, any hash function) and every pair of block ids", "why_tests_cant": "The deduplication tables are pruned; only an invariant relating pruning to the TooOld check rules out a replay at some time.", "anchors": ["cycles-ledger/src/storage.rs::check_duplicate", "cycles-ledger/src/storage.rs::validate_created_at_time", "cycles-ledger/src/storage.rs::prune_transactions", "cycles-ledger/src/storage.rs::is_before_transaction_window"]}
{"id": "C08", "title": "Retries inside the window are answered with Duplicate", "statement": "If a block i carries transaction t with created_at_time, then until created_at_time + 24h + 60s every call that submits t again is answered Duplicate{duplicate_of: i} and changes nothing, whatever the balances, allowances or upgrades in between.", "quantifier": "every reachable state, every block, every retry time within the window, every endpoint that deduplicates", "why_tests_cant": "Needs that no schedule of pruning or upgrades forgets a transaction too early.", "anchors": ["cycles-ledger/src/storage.rs::check_duplicate", "cycles-ledger/src/storage.rs::prune_transactions", "cycles-ledger/src/storage.rs::transfer", "cycles-ledger/src/storage.rs::approve", "cycles-ledger/src/storage.rs::withdraw", "cycles-ledger/src/storage.rs::create_canister"]}
{"id": "C09", "title": "Duplicate answers are honest", "statement": "If a call is answered Duplicate{duplicate_of: i} then block i exists and carries exactly the submitted transaction, unless two different transaction values collide under the hash function.", "quantifier": "every reachable state and every call", "why_tests_cant": "Requires that table entries never dangle after pruning, and injectivity of the transaction encoding.", "anchors": ["cycles-ledger/src/storage.rs::check_duplicate", "cycles-ledger/src/storage.rs::Transaction::hash", "cycles-ledger/src/lib.rs::ciborium_to_generic_value"]}
{"id": "C10", "title": "created_at_time window", "statement": "A block whose transaction has created_at_time c was recorded at a time now with c + 24h + 60s >= now and c <= now + 60s; outside that range calls answer TooOld or CreatedInFuture and change nothing.", "quantifier": "every reachable state and block; every created_at_time in u64 including values near u64::MAX", "why_tests_cant": "Boundary and saturation behaviour over the full 64-bit range.", "anchors": ["cycles-ledger/src/storage.rs::validate_created_at_time", "cycles-ledger/src/config.rs::PERMITTED_DRIFT", "cycles-ledger/src/config.rs::TRANSACTION_WINDOW"]}
{"id": "C11", "title": "Failed calls change nothing", "statement": "If icrc1_transfer, icrc2_transfer_from, icrc2_approve or deposit fails (an Err reply or a trap), or withdraw(_from)/create_canister(_from) fails before cycles leave the ledger, then no balance, allowance, block, deduplication entry, supply or certificate changes.", "quantifier": "every reachable state and every argument", "why_tests_cant": "Error paths are numerous; Err returns are not rolled back by the platform.", "anchors": ["cycles-ledger/src/storage.rs::transfer", "cycles-ledger/src/storage.rs::approve", "cycles-ledger/src/storage.rs::withdraw", "cycles-ledger/src/storage.rs::create_canister", "cycles-ledger/src/main.rs::execute_transfer"]}
{"id": "C12", "title": "Exact effect of a transfer", "statement": "A successful icrc1_transfer of amount from a to b moves exactly amount to b, takes exactly amount + fee from a (a self-transfer costs exactly the fee), changes no other balance, lowers total supply by exactly the fee and returns the index of the single new block.", "quantifier": "every reachable state, every caller, every argument", "why_tests_cant": "All accounts, including the frame condition and self transfers.", "anchors": ["cycles-ledger/src/storage.rs::transfer", "cycles-ledger/src/main.rs::icrc1_transfer"]}
{"id": "C13", "title": "A well-formed funded transfer succeeds", "statement": "A transfer with the right (or no) fee, a memo of at most 32 bytes, created_at_time absent or in the window and not a duplicate, parties other than the management canister, and balance at least amount + fee succeeds: it neither errors nor traps.", "quantifier": "every reachable state and argument meeting those conditions", "why_tests_cant": "Needs absence of hidden traps (underflow of the cached supply, overflow of the credit) in all reachable states.", "anchors": ["cycles-ledger/src/storage.rs::transfer", "cycles-ledger/src/storage.rs::State::check_total_supply_decrease"]}
{"id": "C14", "title": "transfer_from spends exactly the allowance it uses", "statement": "A successful icrc2_transfer_from by a spender different from the owner account requires an unexpired allowance of at least amount + fee, lowers it by exactly amount + fee (keeping its expiry), and changes no other unexpired allowance.", "quantifier": "every reachable state and argument", "why_tests_cant": "Frame over all allowances and all expiry values.", "anchors": ["cycles-ledger/src/storage.rs::check_allowance", "cycles-ledger/src/storage.rs::use_allowance", "cycles-ledger/src/main.rs::icrc2_transfer_from"]}
{"id": "C15", "title": "Only the owner or an approved spender can lower a balance", "statement": "If processing a message lowers an account's balance, then the message is a call whose caller owns the account, or whose caller owns a spender account holding an unexpired allowance from it that covers the decrease. Call-backs and upgrades never lower a balance.", "quantifier": "every reachable state, every event, every account", "why_tests_cant": "Universal over all endpoints and callers (authorization).", "anchors": ["cycles-ledger/src/main.rs::icrc1_transfer", "cycles-ledger/src/main.rs::icrc2_transfer_from", "cycles-ledger/src/main.rs::withdraw_from", "cycles-ledger/src/main.rs::create_canister_from", "cycles-ledger/src/storage.rs::check_allowance"]}
{"id": "C16", "title": "Exact effect of approve", "statement": "A successful icrc2_approve sets the allowance of the pair to exactly the requested amount (capped at 2^128-1) and expiry, regardless of the old one, charges exactly the fee to the approver, and changes no other unexpired allowance or balance.", "quantifier": "every reachable state, every argument", "why_tests_cant": "Frame and replacement semantics over all prior approvals and expiries.", "anchors": ["cycles-ledger/src/storage.rs::approve", "cycles-ledger/src/storage.rs::record_approval", "cycles-ledger/src/main.rs::icrc2_approve"]}
{"id": "C17", "title": "expected_allowance is a compare-and-set", "statement": "An approve with expected_allowance e takes effect only if the allowance reported by icrc2_allowance at that time is e; otherwise it changes nothing and answers AllowanceChanged with the reported allowance, unless it is turned down for another reason that is checked before (a duplicate, the caller as its own spender, the management canister as a party, a fee of 2^128 or more).", "quantifier": "every reachable state and argument", "why_tests_cant": "Races between spends and re-approvals: any interleaving.", "anchors": ["cycles-ledger/src/storage.rs::approve", "cycles-ledger/src/main.rs::icrc2_approve", "cycles-ledger/src/storage.rs::allowance"]}
{"id": "C18", "title": "Expired allowances cannot be spent", "statement": "An approval with expires_at = e can never pay for a transfer_from, withdraw_from or create_canister_from executed at a time >= e, pruned or not.", "quantifier": "every reachable state, every call and time", "why_tests_cant": "Pruning is lazy and limited, so expired entries stay in storage in some states.", "anchors": ["cycles-ledger/src/storage.rs::check_allowance", "cycles-ledger/src/storage.rs::prune_approvals"]}
{"id": "C19", "title": "What icrc2_allowance reports is what can be spent", "statement": "icrc2_allowance, icrc103_get_allowances and the spending check agree on which approvals are live at a given time.", "quantifier": "every reachable state, pair and time", "why_tests_cant": "Only differs at one nanosecond per approval.", "anchors": ["cycles-ledger/src/storage.rs::allowance", "cycles-ledger/src/storage.rs::check_allowance", "cycles-ledger/src/storage.rs::get_allowances"]}
{"id": "C20", "title": "Approvals and the expiration queue stay in step; pruning removes only expired approvals", "statement": "In every reachable state the queue holds exactly one entry per approval that has an expiry, pruning removes only approvals with expiry <= now and at most 100 per call to prune, and the inconsistency messages of the log are never produced.", "quantifier": "every reachable state and prune time", "why_tests_cant": "Two data structures updated in many branches; consistency is an invariant.", "anchors": ["cycles-ledger/src/storage.rs::record_approval", "cycles-ledger/src/storage.rs::use_allowance", "cycles-ledger/src/storage.rs::prune_approvals", "cycles-ledger/src/storage.rs::check_invariants"]}
{"id": "C21", "title": "Exact effect of deposit", "statement": "A deposit with c attached cycles succeeds only if c > fee, credits exactly c - fee to the account, changes no other balance, and returns the new balance and the index of the new block; otherwise it traps and nothing changes and no cycles are kept.", "quantifier": "every reachable state, amount and account", "why_tests_cant": "All amounts and states.", "anchors": ["cycles-ledger/src/storage.rs::deposit", "cycles-ledger/src/storage.rs::mint", "cycles-ledger/src/main.rs::deposit"]}
{"id": "C22", "title": "Withdrawals burn before they pay, and pay exactly once", "statement": "An accepted withdraw(_from) takes amount + fee from the account in the same message that sends exactly amount cycles to the target; the call is answered Ok(block index) when delivery succeeds and the final supply change is exactly amount + fee.", "quantifier": "every reachable state, any messages interleaved between the call and its answer", "why_tests_cant": "Asynchronous: arbitrary interleavings between the two halves.", "anchors": ["cycles-ledger/src/storage.rs::withdraw", "cycles-ledger/src/main.rs::withdraw", "cycles-ledger/src/main.rs::withdraw_from"]}
{"id": "C23", "title": "A failed withdrawal is refunded exactly", "statement": "If delivery fails, the account gets back amount - fee (nothing if amount <= fee); for withdraw_from with amount > 2*fee and the approval not expired the allowance is raised by amount - 2*fee (saturating) at the price of one more fee; the reply names the blocks recording this. The one exception is a call-back that traps: then nothing is refunded and no other state changes; that happens only in the corner described under C25. (A call-back that the Internet Computer itself stops midway is the subject of C79.)", "quantifier": "every reachable state at the time of the failure, any interleaving before it, every amount", "why_tests_cant": "Interleavings with approvals, spends, expiry and pruning.", "anchors": ["cycles-ledger/src/storage.rs::withdraw", "cycles-ledger/src/storage.rs::reimburse", "cycles-ledger/src/storage.rs::reimburse_approval"]}
{"id": "C24", "title": "A failed canister creation is refunded exactly", "statement": "As C23 for create_canister(_from) with the amount the cycles minting canister says it returned; nothing is refunded when it reports a failed refund; on success the reply carries the canister id and a retry is answered Duplicate with that id. The one exception is a call-back that traps: then nothing is refunded and no other state changes; that happens only in the corner described under C25. (A call-back that the Internet Computer itself stops midway is the subject of C79.)", "quantifier": "every reachable state at the time of the answer, any interleaving, every answer of the CMC", "why_tests_cant": "Interleavings and arbitrary answers.", "anchors": ["cycles-ledger/src/storage.rs::create_canister", "cycles-ledger/src/storage.rs::reimburse", "cycles-ledger/src/storage.rs::reimburse_approval"]}
{"id": "C25", "title": "Refund processing never traps", "statement": "The call-back of a failed withdraw or create_canister always completes, so the refund is never lost.", "quantifier": "every reachable state at the time of the call-back", "why_tests_cant": "A trap in a call-back rolls the refund back while the burn stays; tests cannot enumerate the states.", "anchors": ["cycles-ledger/src/storage.rs::withdraw", "cycles-ledger/src/storage.rs::reimburse", "cycles-ledger/src/storage.rs::reimburse_approval", "cycles-ledger/src/storage.rs::approve"]}
{"id": "C26", "title": "A revoked or replaced approval stays as the owner set it", "statement": "After the owner's approve succeeds, only the spender's own spends and further approve calls by the owner change that allowance's amount and expiry.", "quantifier": "every reachable state and continuation", "why_tests_cant": "Depends on refunds of calls still in flight when the owner changed the approval.", "anchors": ["cycles-ledger/src/storage.rs::reimburse_approval", "cycles-ledger/src/storage.rs::withdraw", "cycles-ledger/src/storage.rs::create_canister"]}
{"id": "C27", "title": "Solvency", "statement": "If the cycles minting canister reports refunds truthfully, the cycles the ledger holds together with those it has spent on its own execution, minus what it was installed with, are always at least the total supply minus the initial balances: every token is backed, and only the ledger's own running costs can eat into the backing.", "quantifier": "every history of deposits, withdrawals, creations, failures and upgrades", "why_tests_cant": "A conservation law across an unbounded history.", "anchors": ["cycles-ledger/src/main.rs::deposit", "cycles-ledger/src/storage.rs::withdraw", "cycles-ledger/src/storage.rs::create_canister", "cycles-ledger/src/storage.rs::reimburse"]}
{"id": "C28", "title": "Default controllers of created canisters", "statement": "The settings sent to the cycles minting canister always name controllers: those given by the caller if any, else exactly the caller; all other settings and the subnet selection are forwarded unchanged.", "quantifier": "every creation argument and caller", "why_tests_cant": "All combinations of optional nested arguments.", "anchors": ["cycles-ledger/src/storage.rs::create_canister"]}
{"id": "C29", "title": "icrc3_get_blocks serves exactly the requested blocks", "statement": "Every served (id, block) is the log entry at that id; a single range [start, start+length) yields the consecutive ids from start up to the end of the range, the log, or max_blocks_per_request, whichever is first; the total never exceeds max_blocks_per_request.", "quantifier": "every reachable state, every list of ranges with arbitrary naturals, every configured limit", "why_tests_cant": "Arbitrary-precision arguments, 64-bit wrap-around and multi-range budgets.", "anchors": ["cycles-ledger/src/storage.rs::get_blocks"]}
{"id": "C30", "title": "icrc103_get_allowances pages through every live allowance once", "statement": "Calling with prev_spender set to the last returned pair until an empty page returns every unexpired allowance of the owner whose from-account is not before the start, exactly once, in strictly increasing order; a page never exceeds min(take, 500).", "quantifier": "every reachable state, owner, start and page size; any total order on principals", "why_tests_cant": "Completeness of pagination is a statement over all states and page sizes.", "anchors": ["cycles-ledger/src/storage.rs::get_allowances", "cycles-ledger/src/main.rs::icrc103_get_allowances"]}
{"id": "C31", "title": "Upgrades preserve the ledger", "statement": "An upgrade leaves every balance, allowance, block, the total supply, deduplication answers and the tip certificate unchanged, and changes only the configuration fields named in its argument.", "quantifier": "every reachable state and upgrade argument", "why_tests_cant": "The heap cache is dropped and recomputed; equality holds only by invariant.", "anchors": ["cycles-ledger/src/storage.rs::STATE", "cycles-ledger/src/storage.rs::compute_total_supply", "cycles-ledger/src/storage.rs::compute_last_block_hash_and_hash_tree", "cycles-ledger/src/main.rs::post_upgrade"]}
{"id": "C32", "title": "The default subaccount has one identity", "statement": "Passing no subaccount and passing the all-zero subaccount denote the same account for balances, allowances, debits and credits.", "quantifier": "every reachable state, operation and owner", "why_tests_cant": "All entry points must normalise identically.", "anchors": ["cycles-ledger/src/storage.rs::to_account_key", "cycles-ledger/src/storage.rs::balance_of", "cycles-ledger/src/storage.rs::allowance"]}
{"id": "C33", "title": "The management canister cannot take part in transfers or approvals", "statement": "No transfer or approve block names the management canister principal as owner of any party, and no allowance involves it; no allowance has the same owner on both sides.", "quantifier": "every reachable state", "why_tests_cant": "An invariant over all histories, including refund approvals.", "anchors": ["cycles-ledger/src/storage.rs::is_denied_account", "cycles-ledger/src/storage.rs::transfer", "cycles-ledger/src/storage.rs::approve"]}
{"id": "C34", "title": "Block timestamps never decrease; every recorded block is well formed", "statement": "Timestamps are non-decreasing along the log, memos are at most 32 bytes, amounts fit 128 bits, and each block records the fee actually charged.", "quantifier": "every reachable state", "why_tests_cant": "Includes blocks written by call-backs long after the call.", "anchors": ["cycles-ledger/src/storage.rs::process_transaction", "cycles-ledger/src/memo.rs::validate_memo", "cycles-ledger/src/storage.rs::effective_fee"]}
{"id": "C35", "title": "Stored blocks decode to what was written", "statement": "Encoding a block to CBOR for stable storage and decoding it gives the same block; likewise converting a block to its ICRC-3 value and back.", "quantifier": "every block with 64/128-bit fields, any optional fields and any principals and memos", "why_tests_cant": "Integers switch representation at 2^64; optional fields and nested arrays.", "anchors": ["cycles-ledger/src/storage.rs::Cbor", "cycles-ledger/src/storage.rs::Block::from_value", "cycles-ledger/src/storage.rs::Block::to_value", "cycles-ledger/src/storage.rs::FlattenedTransaction", "cycles-ledger/src/storage.rs::phash", "cycles-ledger/src/compact_account.rs"]}
{"id": "C36", "title": "Generic and CBOR values convert back and forth without loss", "statement": "ciborium_to_generic_value succeeds exactly on values of supported kinds nested at most 64 deep; on CBOR values in the form the ledger writes (sorted distinct text keys, minimal bignums, no redundant tags) going to a generic value and back is the identity, and so is going to CBOR and back from any generic value that can come out of a conversion. generic_to_ciborium_value succeeds exactly on values nested at most 64 deep that have no 64-bit kind and whose integers all lie between 0 and 2^64 - 1.", "quantifier": "every CBOR value of any size and depth", "why_tests_cant": "Recursive structure of unbounded size.", "anchors": ["cycles-ledger/src/lib.rs::ciborium_to_generic_value", "cycles-ledger/src/lib.rs::generic_to_ciborium_value"]}
{"id": "C37", "title": "Withdraw memos identify the receiver and always fit", "statement": "The memo of a withdrawal is at most 32 bytes for every principal, determines the receiver uniquely, and never equals the memo used for canister creation or refunds.", "quantifier": "every principal (0 to 29 bytes)", "why_tests_cant": "All byte strings.", "anchors": ["cycles-ledger/src/memo.rs::encode_withdraw_memo", "cycles-ledger/src/storage.rs::CREATE_CANISTER_MEMO", "cycles-ledger/src/storage.rs::PENALIZE_MEMO"]}
{"id": "C38", "title": "LEB128 index in the certificate is decodable", "statement": "The certified last_block_index decodes to the index for every 64-bit index and takes at most 10 bytes.", "quantifier": "every u64", "why_tests_cant": "2^64 values.", "anchors": ["cycles-ledger/src/storage.rs::populate_last_block_hash_and_hash_tree", "cycles-ledger/src/storage.rs::MAX_U64_ENCODING_BYTES"]}
{"id": "C39", "title": "Endpoints without a spender never trap on InsufficientAllowance", "statement": "icrc1_transfer, withdraw and create_canister never reach the conversion traps reserved for InsufficientAllowance, and no update call traps except for an over-long memo, a self approval or a rejected deposit; the one corner left is a _from call whose outgoing call fails at once, at the last nanosecond of the 64-bit clock or on a hash collision.", "quantifier": "every reachable state and every argument", "why_tests_cant": "Absence of traps over all states.", "anchors": ["cycles-ledger/src/lib.rs::transfer_from_error_to_transfer_error", "cycles-ledger/src/lib.rs::withdraw_from_error_to_withdraw_error", "cycles-ledger/src/lib.rs::create_canister_from_error_to_create_canister_error"]}
{"id": "C40", "title": "Wrong fees are rejected first", "statement": "A transfer or approve suggesting any fee other than the value of icrc1_fee never succeeds, and for a transfer of less than 2^128 between permitted parties that is not a duplicate answers BadFee even when funds are missing.", "quantifier": "every reachable state and fee, including values above 2^128", "why_tests_cant": "All fee values.", "anchors": ["cycles-ledger/src/storage.rs::transfer", "cycles-ledger/src/storage.rs::approve", "cycles-ledger/src/main.rs::execute_transfer"]}
{"id": "C41", "title": "Initial balances", "statement": "After init every account holds exactly the sum of its entries in initial_balances, the log holds one mint block per entry in order, and no fee is charged.", "quantifier": "every init argument", "why_tests_cant": "Lists of any length with repeated accounts.", "anchors": ["cycles-ledger/src/main.rs::init", "cycles-ledger/src/storage.rs::mint"]}
{"id": "C42", "title": "Spending through an allowance is bounded by what was approved", "statement": "Between two approve blocks for a pair, the sum of amount + fee over all blocks spent by that spender from that account is at most the approved amount.", "quantifier": "every reachable state, pair and log segment", "why_tests_cant": "Sum over unbounded history.", "anchors": ["cycles-ledger/src/storage.rs::use_allowance", "cycles-ledger/src/storage.rs::check_allowance"]}
{"id": "C43", "title": "Advertised block types cover the log", "statement": "Every block in the log has a type listed by icrc3_supported_block_types.", "quantifier": "every reachable state and block", "why_tests_cant": "All operations.", "anchors": ["cycles-ledger/src/main.rs::icrc3_supported_block_types", "cycles-ledger/src/storage.rs::Transaction::to_value"]}
{"id": "C44", "title": "Only accounts with funds occupy the balance table", "statement": "The number of stored balances equals the number of accounts with a non-zero balance.", "quantifier": "every reachable state", "why_tests_cant": "Zero credits on some paths.", "anchors": ["cycles-ledger/src/storage.rs::State::credit", "cycles-ledger/src/storage.rs::State::debit"]}
{"id": "C45", "title": "Deduplication and the default subaccount", "statement": "Two transfers that differ only in writing the default subaccount as absent or as 32 zero bytes are different transactions for deduplication: both can be executed with the same created_at_time. (One would expect the opposite; the code does not do it.)", "quantifier": "existence of a reachable history", "why_tests_cant": "A test shows one run; here the point is that the uniqueness of C07 is exactly up to representation, which needs the universal theorem C07 next to a witness.", "anchors": ["cycles-ledger/src/storage.rs: check_duplicate, Transaction::hash", "cycles-ledger/src/main.rs: icrc1_transfer"]}
{"id": "C46", "title": "Retrying a refunded withdrawal", "statement": "A withdraw with created_at_time that failed and was refunded is answered Duplicate when retried inside the window, although no cycles were delivered. (One would expect a retry to be possible; the code does not do it.)", "quantifier": "existence of a reachable history with an asynchronous failure", "why_tests_cant": "It depends on the interleaving of the failing call-back with the retry.", "anchors": ["cycles-ledger/src/storage.rs: withdraw, reimburse", "cycles-ledger/src/main.rs: withdraw"]}
{"id": "C47", "title": "Deduplication entries are forgotten only when they can no longer matter", "statement": "The table that finds duplicates by hash and the table that orders them by time always hold the same transactions; pruning drops only transactions whose created_at_time is outside the window, oldest first, at most 100000 per call, and all of them if there are fewer.", "quantifier": "every reachable state, every prune time and every limit", "why_tests_cant": "Two tables updated together on every accepted call; consistency is an invariant of all histories.", "anchors": ["cycles-ledger/src/storage.rs::prune_transactions", "cycles-ledger/src/storage.rs::emit_block", "cycles-ledger/src/storage.rs::check_duplicate"]}
{"id": "C48", "title": "Hashes identify transactions and blocks", "statement": "Two transactions with the same transaction hash are the same transaction, and two blocks with the same block hash are the same block, unless SHA-256 collides on two byte strings that were actually hashed. A Duplicate answer therefore names a block with exactly the requested transaction, subaccounts, memo and all.", "quantifier": "every pair of transactions and blocks with fields in range; every hash function with 32-byte results; every reachable state and call answered Duplicate", "why_tests_cant": "Injectivity of an encoding ranges over all pairs of inputs; the representation-independent hash has no type tags, so it is injective only for values of the ledger's shape.", "anchors": ["cycles-ledger/src/storage.rs: Transaction::hash, Block::hash, Transaction::to_value, Block::to_value, check_duplicate", "cycles-ledger/src/lib.rs: ciborium_to_generic_value"]}
{"id": "C49", "title": "The tip certificate authenticates the whole log", "statement": "A client that holds a list of block values, checks that they have the shape of blocks and that each names the hash of the one before, and checks the last against the hash tree of icrc3_get_tip_certificate, holds exactly the ledger's log, or SHA-256 collides on two strings the client or the ledger hashed. The ledger's own log and hash tree always pass this check. Two states with the same certified data have the same log.", "quantifier": "every reachable non-empty ledger, every list of values and every hash tree (including pruned ones) offered to the client", "why_tests_cant": "It quantifies over all forged logs and forged hash trees.", "anchors": ["cycles-ledger/src/storage.rs: get_tip_certificate, root_hash, populate_last_block_hash_and_hash_tree, emit_block", "cycles-ledger/src/main.rs: icrc3_get_tip_certificate, icrc3_get_blocks"]}
{"id": "C50", "title": "Every answer is determined by what clients can see", "statement": "For each of the eight update calls there is a fixed, ordered table of conditions stated on the arguments, the time, balances, allowances, supply and remembered transactions. The first condition that holds decides the answer: the caller gets exactly that error with exactly those values in it, and nothing changes. If no condition holds the call is accepted and the caller gets exactly the index of its block (or the pending outgoing call). The only exception is a withdrawal or creation whose outgoing call fails at once in a corner where the refund cannot be recorded: it traps and changes nothing.", "quantifier": "every reachable state, time, caller, call with any arguments, and behaviour of the outgoing call", "why_tests_cant": "The table ranges over all combinations of broken rules; tests break one rule at a time and cannot show that no other refusal exists.", "anchors": ["cycles-ledger/src/main.rs: deposit, execute_transfer, icrc2_approve, withdraw, withdraw_from, create_canister, create_canister_from", "cycles-ledger/src/storage.rs: check_duplicate, process_transaction, validate_created_at_time, transfer, approve, deposit, withdraw, create_canister", "cycles-ledger/src/endpoints.rs: error types"]}
{"id": "C51", "title": "An indexer that fetched the log knows the ledger", "statement": "A client that fetches all blocks with icrc3_get_blocks and interprets their generic values by field name (op, from, to, spender, amt, fee, expires_at) computes exactly the balance of every account, the total supply (minted minus burned minus fees) and every unexpired allowance the ledger reports. The whole log can be fetched whenever max_blocks_per_request is not zero (and log length plus that number stays within 2^64).", "quantifier": "every reachable ledger, every way of fetching the blocks, every account, pair and later time", "why_tests_cant": "It relates all histories to an independent reading of the public block schema.", "anchors": ["cycles-ledger/src/storage.rs: Transaction::to_value, Block::to_value, account_to_value, get_blocks", "cycles-ledger/src/main.rs: icrc3_get_blocks, icrc1_balance_of, icrc1_total_supply, icrc2_allowance"]}
{"id": "C52", "title": "A verified log from an untrusted source determines the ledger", "statement": "A client that holds a list of block values from any source and has checked it against icrc3_get_tip_certificate computes from it exactly the ledger's balances, supply and unexpired allowances, or SHA-256 collides on two strings the client or the ledger hashed.", "quantifier": "every reachable ledger, every list of values and hash tree that passes the check", "why_tests_cant": "It quantifies over all forged logs and hash trees.", "anchors": ["cycles-ledger/src/storage.rs: get_tip_certificate, root_hash, emit_block, Block::to_value", "cycles-ledger/src/main.rs: icrc3_get_tip_certificate"]}
{"id": "C53", "title": "What an idle owner can lose", "statement": "Over any stretch of time in which an account's owner makes no call, the account's balance falls by at most the sum of the allowances that were unexpired at its beginning; what was lost plus what spenders can still draw at the end stays within that sum. Without approvals the balance cannot fall at all. This holds also for allowances given back after failed withdrawals, and across upgrades.", "quantifier": "every reachable ledger, every account, every finite sequence of calls by others, replies from other canisters, upgrades and clock advances", "why_tests_cant": "It quantifies over all interleavings of all spenders' calls, failing outgoing calls with their refunds, and expiries.", "anchors": ["cycles-ledger/src/storage.rs: use_allowance, reimburse, reimburse_approval, transfer, withdraw, create_canister", "cycles-ledger/src/main.rs: icrc2_transfer_from, withdraw_from, create_canister_from"]}
{"id": "C54", "title": "The log is exactly the record of what happened", "statement": "The log consists of one mint per initial balance, followed, message by message in order, by the blocks of that message: an accepted call adds first the transaction its caller asked for, stamped with the time of the call, a call that is turned down adds none, and the only other blocks are the mint and the restored approval that refund a failed outgoing call of an accepted call. So every transfer, withdrawal and approval in the log was asked for by the owner or the spender it names.", "quantifier": "every installation, every finite sequence of calls, replies, upgrades and clock advances, every block of the resulting log", "why_tests_cant": "It quantifies over whole histories with interleaved asynchronous calls.", "anchors": ["cycles-ledger/src/storage.rs: process_transaction, emit_block, reimburse, reimburse_approval", "cycles-ledger/src/main.rs: all update calls"]}
{"id": "C55", "title": "Advertised parameters are the enforced ones", "statement": "In every reachable state the entries of icrc1_metadata describe what the ledger does. icrc1:fee is what icrc1_fee returns, 100 million cycles, every block that is not a mint charged exactly it, and a call naming another fee is rejected with no effect. A memo longer than icrc1:max_memo_length is always rejected with no effect, and one within it never causes the memo trap. No reply of icrc3_get_blocks has more blocks than dfn:max_blocks_per_request, and a range inside the log of at most that many blocks is answered in full (while log length plus that bound stays within 2^64). icrc106:index_principal and dfn:index_id are present exactly if icrc106_get_index_principal returns a principal, and then carry that principal. The text in icrc106:index_principal can be read back to exactly the principal that icrc106_get_index_principal returns. Name, symbol and decimals are the same in the metadata and in their own queries, and by the decimals one token is a trillion cycles; the two lists of supported standards agree, and no key of the metadata occurs twice.", "quantifier": "every reachable state, every log block, every call with any arguments, every block range", "why_tests_cant": "The entries and the checks are written in different places; agreement must hold for all memos, fees, ranges and after any sequence of upgrades.", "anchors": ["cycles-ledger/src/main.rs: icrc1_metadata, icrc106_get_index_principal, icrc3_get_blocks", "cycles-ledger/src/storage.rs: validate_memo, process_transaction, get_blocks", "cycles-ledger/src/config.rs: FEE, MAX_MEMO_LENGTH", "cycles-ledger/src/main.rs: icrc1_name, icrc1_symbol, icrc1_decimals, supported_standards"]}
{"id": "C56", "title": "Simultaneous calls about different accounts can come in any order", "statement": "Take two calls among deposit, icrc1_transfer, icrc2_transfer_from and icrc2_approve that arrive at the same ledger time and concern different accounts (the accounts debited, credited or whose allowance is used or set). Whichever the ledger handles first, each of them is accepted in both orders or rejected in both, and afterwards every balance, the total supply, every usable allowance and the set of recorded transactions are the same. This assumes that no two different transactions hash alike, that the total supply stays below 2^128, and that an approve with an expected_allowance does not meet an allowance expiring in that very nanosecond; the last assumption is needed.", "quantifier": "every reachable state, every two calls by any callers with any arguments on disjoint accounts, every ledger time", "why_tests_cant": "A test fixes one schedule; this compares both schedules of any two calls from any state, including pruning side effects of one call on the other.", "anchors": ["cycles-ledger/src/storage.rs: process_transaction, process_block, prune, deposit, transfer, approve", "cycles-ledger/src/main.rs: deposit, icrc1_transfer, icrc2_transfer_from, icrc2_approve"]}
{"id": "C57", "title": "The configuration is what installation and upgrades set", "statement": "The ledger's configuration (how many blocks a request may return, which index canister is advertised) is at every moment the one given at installation with the changes asked for by the upgrades since, in order; no call, answer to an outgoing call, trap or passage of time changes it. The form in which it is kept across upgrades loses nothing: what is written is read back equal, whatever follows it in the memory.", "quantifier": "all installation arguments, all histories of calls, answers and upgrades, all configurations", "why_tests_cant": "a test sees a few upgrades and a few configurations; the claim is about every history and every value of the configuration", "anchors": ["cycles-ledger/src/config.rs:Config", "cycles-ledger/src/config.rs:Storable for Config", "cycles-ledger/src/main.rs:init", "cycles-ledger/src/main.rs:post_upgrade", "cycles-ledger/src/storage.rs:mutate_config"]}
{"id": "C58", "title": "Deposits through the depositor canister are exact", "statement": "When cycles are deposited through the depositor canister, then whatever the order of messages, rejections by the system, upgrades of either canister and other calls to the ledger: each deposit the ledger makes for the depositor belongs to one call, has a block of its own crediting that call's account with its cycles less the fee and carrying its memo; a caller told of success is told the block of their own deposit, a caller told of failure had none and will have none; and the depositor's cycles, those under way in both directions, those consumed and those deposited always add up to what it started with and was topped up with. Without upgrades of the depositor every caller is told once the messages have arrived, and a request that reaches the ledger is credited exactly if it brings more than the fee, has an admissible memo and keeps the supply below 2^128. After an upgrade the depositor has forgotten the ledger: no later call is ever credited.", "quantifier": "all states of the ledger, all arguments, all interleavings of calls, deliveries, rejections, answers, upgrades of either canister and other traffic of the ledger", "why_tests_cant": "the interleavings of two canisters' messages with upgrades are unbounded; a test runs a few", "anchors": ["depositor/src/main.rs:deposit", "depositor/src/main.rs:init", "depositor/src/lib.rs:Config", "cycles-ledger/src/main.rs:deposit"]}
{"id": "C59", "title": "Expired data is cleared out by use", "statement": "Storage held by expired approvals and by transactions that have left the deduplication window shrinks with use. Every accepted call removes at least 100 of the approvals that had expired by any earlier moment t (or all of them if there are fewer) and at least 100000 of the remembered transactions that had left the window by t (or all of them), the oldest first. No call, answer or upgrade at or after t ever adds to either backlog. So after k accepted calls the backlogs of t are down by 100*k and 100000*k or gone.", "quantifier": "all reachable states, all moments t, all histories of calls, answers and upgrades that take place at or after t, in any order and number", "why_tests_cant": "A test can fill the tables with a few entries and see them go. That no interleaving of calls, failing callbacks and upgrades can make the backlog grow or escape clearing is a statement about all histories, and the limits are too large to reach in a unit test.", "anchors": ["cycles-ledger/src/storage.rs: prune", "cycles-ledger/src/storage.rs: prune_approvals", "cycles-ledger/src/storage.rs: prune_transactions", "cycles-ledger/src/config.rs: APPROVE_PRUNE_LIMIT, TRANSACTION_PRUNE_LIMIT"]}
{"id": "C60", "title": "Served blocks have the standard form", "statement": "Every block that icrc3_get_blocks returns is a map with exactly the fields the ICRC-3 schema prescribes for its kind and no others, in ascending order without repetition: ts below 2^64, phash of 32 bytes in every block but the first, and tx of the form of a mint, burn, xfer or approve with required from, to, spender and amt and optional memo of at most 32 bytes, ts, fee, expected_allowance and expires_at, amounts below 2^128, accounts as one blob of at most 29 bytes followed by a subaccount blob of exactly 32 bytes if there is one. The fee that was charged can be read off every block: burns and mints carry it in the block, transfers and approvals carry it in exactly one of the block and the transaction.", "quantifier": "all reachable states and all requests", "why_tests_cant": "The form must hold for every block any history can record, with every combination of optional arguments; tests check the form of a few blocks.", "anchors": ["cycles-ledger/src/storage.rs: Block::to_value", "cycles-ledger/src/storage.rs: Transaction::to_value", "cycles-ledger/src/storage.rs: account_to_value", "cycles-ledger/src/storage.rs: effective_fee", "cycles-ledger/src/main.rs: icrc3_get_blocks"]}
{"id": "C61", "title": "Owners stay in control", "statement": "In every state the owner of an account can use it without anybody's consent. As long as the ledger holds the cycles that back the supply, a withdraw of any positive amount that the balance covers together with the fee, to any principal that is not self-authenticating (those belong to users, not canisters), is accepted and the cycles go out at once, and likewise a create_canister. An owner who can pay the fee can revoke any approval: the call succeeds and the allowance is 0 from then on. A spender with a live allowance that covers amount and fee, of an account that has them, can transfer them. None of these calls can be blocked by what others did before, by earlier equal calls or by calls in flight. (No created_at_time is given; two different transactions with the same hash and the last nanosecond of the 64-bit clock are excluded; approvals and transfers are between permitted parties.)", "quantifier": "all reachable states, callers, accounts and amounts", "why_tests_cant": "A test shows that a call works in a state that was prepared for it; that no history can bring the ledger into a state where an owner is locked out is a statement about all histories.", "anchors": ["cycles-ledger/src/main.rs: withdraw, create_canister, icrc2_approve, icrc2_transfer_from", "cycles-ledger/src/storage.rs: withdraw, create_canister, approve, transfer", "cycles-ledger/src/storage.rs: check_duplicate"]}
{"id": "C62", "title": "A canister named in a Duplicate answer was really created for that transaction", "statement": "When create_canister or create_canister_from is answered Duplicate and the answer names a canister, then earlier in the history the same transaction was accepted, the cycles minting canister answered its call with exactly this canister, the caller of that time was told this canister and block, and the block named in the Duplicate answer records that transaction. The only exception would be two different transactions with the same hash. Without an answer of the cycles minting canister that names a canister, no Duplicate answer ever names it.", "quantifier": "every history from installation (any mix of calls, failures, late answers, refunds, pruning and upgrades), every later call, every canister id", "why_tests_cant": "The canister id is noted in a callback, long after the call, in an entry that other calls, refunds, pruning and upgrades also touch; tests retry once in a quiet ledger and cannot rule out that some history attaches a canister to the wrong transaction.", "anchors": ["cycles-ledger/src/storage.rs: create_canister", "cycles-ledger/src/storage.rs: check_duplicate", "cycles-ledger/src/storage.rs: prune_transactions", "cycles-ledger/src/endpoints.rs: CreateCanisterError::Duplicate"]}
{"id": "C63", "title": "The order in which outgoing calls finish does not matter", "statement": "If two withdrawals or canister creations are waiting for their answers and both answers come in at the same time, then whichever is handled first, and as long as neither call-back traps, the same result is reached: equal balances of every account, equal total supply, equal cycles held, the same calls still waiting, equally many blocks, and for every owner and spender the same amount the spender may use. Expiry times of allowances agree too, except possibly for a pair for which both calls were made on behalf of that spender from that owner's account.", "quantifier": "all reachable states, all pairs of waiting calls (any kind, any accounts), all answers and refunds, all times", "why_tests_cant": "The number of interleavings of answers, answer kinds, accounts involved and allowance states is unbounded; a test fixes one schedule.", "anchors": ["cycles-ledger/src/storage.rs::withdraw", "cycles-ledger/src/storage.rs::create_canister", "cycles-ledger/src/storage.rs::reimburse"]}
{"id": "C64", "title": "Every block leaves exactly the fee with the ledger", "statement": "Let the backing be the cycles the ledger holds plus those it has spent on its own execution, minus the total supply. In every event the backing changes by exactly the fee times the number of blocks the event records, plus: a top-up; for the answer to an outgoing call, the cycles that came back minus those the answer reports for refund (if these are worth refunding, i.e. above the fee), or all that came back if its processing traps or is stopped; for a payment that could not even be sent, the amount if it is not above the fee. In particular, if answers never report more cycles than came back, the backing grows by at least the fee for every block, whatever users do.", "quantifier": "all reachable states, all events (calls of every kind, answers, traps and answers stopped midway, upgrades, consumption, top-ups) and all histories", "why_tests_cant": "It is an accounting identity over all histories; a test sums up a single one, and a leak in one rare branch (small refunds, restored allowances) stays invisible.", "anchors": ["cycles-ledger/src/storage.rs::deposit", "cycles-ledger/src/storage.rs::withdraw", "cycles-ledger/src/storage.rs::create_canister", "cycles-ledger/src/storage.rs::reimburse", "cycles-ledger/src/storage.rs::reimburse_approval", "cycles-ledger/src/storage.rs::State::credit", "cycles-ledger/src/storage.rs::State::debit"]}
{"id": "C65", "title": "Refunds never exceed what was burned", "statement": "At every moment the log contains, for every account, at most as many refunds (mints without a fee) to it as burns from it; and if no answer of the cycles minting canister reports more cycles for refund than were sent to it, the refunds to an account add up to at most what was burned from it. So no sequence of failing withdrawals and canister creations can create tokens.", "quantifier": "all reachable states (all histories of calls, answers in any order, traps, upgrades) and all accounts", "why_tests_cant": "It must hold for every interleaving of waiting calls and their answers; a double refund may only show up in one rare order of events.", "anchors": ["cycles-ledger/src/storage.rs::withdraw", "cycles-ledger/src/storage.rs::create_canister", "cycles-ledger/src/storage.rs::reimburse"]}
{"id": "C66", "title": "Listing allowances while they change", "statement": "A client that lists the allowances of an account page by page, asking each time for what comes after the last pair of the page before, gets a sound list even if approvals, spends, expiries, upgrades and prunings happen between its requests: no pair is listed twice, every listed pair could be spent exactly as listed when its page was served, and every pair that had an unexpired allowance at all of the requests is listed.", "quantifier": "all reachable states at the successive requests (arbitrary changes between them), all times, all page sizes above zero, all starting accounts", "why_tests_cant": "The state may change in any way between two pages; tests list a state that stands still.", "anchors": ["cycles-ledger/src/storage.rs::get_allowances", "cycles-ledger/src/main.rs::icrc103_get_allowances"]}
{"id": "C67", "title": "The metrics page agrees with the ledger", "statement": "The page /metrics (with or without a query string) has exactly one value for each gauge, and that value is the double-precision number nearest to the true one (exact below 2^53, right to one part in 2^53 above): the total supply is what icrc1_total_supply returns, the number of blocks is the log length of icrc3_get_blocks, the cycle balance is what the ledger holds. Every account with funds is counted among the balances, every allowance that can be used is counted among the approvals and, if it expires, among the expiration entries, and every transaction that is still protected against repetition is counted, equally, in the two deduplication gauges. Any path other than /metrics and /logs is not found.", "quantifier": "all reachable states, all URLs, all sets of accounts, pairs and transactions", "why_tests_cant": "Tests look at a few small states; rounding only matters for supplies above 2^53 and the counts must agree after every history.", "anchors": ["cycles-ledger/src/main.rs::http_request", "cycles-ledger/src/main.rs::encode_state_metrics", "cycles-ledger/src/main.rs::encode_metrics"]}
{"id": "C68", "title": "Canister creation end to end with the project's minting stand-in", "statement": "When the ledger works with the cycles minting canister's stand-in of this project (fake-cmc), then whatever the order of calls, deliveries, rejections, answers and upgrades of the ledger: each accepted create_canister or create_canister_from has a block of its own that burned what was asked for, and exactly that amount and the requested settings are sent out; a caller told of success is told that block and the canister made for this call; for a caller told of a failure no canister was made and none will be; no canister is made for two calls. As long as the stand-in is not told to report a refund larger than what is attached and the management canister does not turn it down after it accepted the cycles, every token stays backed by cycles.", "quantifier": "all reachable ledgers, all arguments, all interleavings of calls, simulated failures, deliveries, rejections, management canister answers, ledger upgrades and other traffic", "why_tests_cant": "The project's tests drive a few creations one at a time; the claim is about every interleaving of any number of creations, failures and upgrades.", "anchors": ["fake-cmc/src/main.rs::create_canister", "fake-cmc/src/main.rs::fail_next_create_canister_with", "fake-cmc/src/lib.rs::State", "cycles-ledger/src/storage.rs::create_canister"]}
{"id": "C69", "title": "Everyone can cash out", "statement": "While the ledger's cycles cover the total supply, token holders can withdraw all at once: for any list of withdrawals (no created_at_time, amount not 0, receiver not a self-authenticating principal) that takes from no account more than its balance, fees included, asking for them one after the other makes every single one go out with exactly its cycles; each account ends with what the requests left, the supply falls by amounts plus fees, the ledger's cycles by the amounts, and the cycles still cover the supply. When the cycles have arrived each caller is told the block of the burn, whatever else happened in between. From installation on the cycles cover the supply if the ledger was installed with cycles for its initial balances and its running costs and the cycles minting canister reports truthfully.", "quantifier": "every reachable state whose cycles cover the supply, every list of withdrawals within the balances, every later history", "why_tests_cant": "Tests withdraw once or twice from a ledger with ample cycles; that no order or combination of withdrawals leaves somebody unpaid is a statement about all states and all lists.", "anchors": ["cycles-ledger/src/main.rs::withdraw", "cycles-ledger/src/storage.rs::withdraw"]}
{"id": "C70", "title": "One hash for the stored and the served form", "statement": "The hash by which a block is chained is the same whether it is computed from the value the ledger serves for the block or from the bytes the block is stored in, and the hash under which the ledger remembers a transaction (to answer Duplicate) is the hash of the field \"tx\" of the served block, provided that an integer that is not negative is hashed like the natural number it equals.", "quantifier": "every block whose fields are in the ranges of their types; every entry of the table of remembered transactions in every reachable state; every hash function", "why_tests_cant": "The repository tests it on random blocks. Numbers below and above 2^64 are stored in different forms, so that the claim depends on each number in each optional field.", "anchors": ["cycles-ledger/src/storage.rs: Block::to_value, Block::hash, Transaction::hash, the test of block hashes (old hash without the FI-1247 fix)", "cycles-ledger/src/lib.rs: ciborium_to_generic_value"]}
{"id": "C71", "title": "Storage is bounded by the log and paid for", "statement": "The ledger never keeps more balances than there are blocks that credit an account, nor more approvals than there are blocks that set one, nor more remembered transactions than there are blocks whose transaction carries a created_at_time; balances and approvals together are no more than the blocks, and every block has left the fee with the ledger. So nobody can make the ledger store entries without paying the fee for each.", "quantifier": "every reachable state, every history of calls, answers, failures and upgrades; for the payment: every history in which no other canister's answer reports more cycles than came back", "why_tests_cant": "The tables are changed by every kind of call, by refunds, by restored approvals and by pruning; a leak shows only in the long run.", "anchors": ["cycles-ledger/src/storage.rs: State (balances, approvals, expiration_queue, transaction_hashes, transaction_timestamps), emit_block, reimburse_approval, prune", "cycles-ledger/src/main.rs: encode_metrics"]}
{"id": "C72", "title": "A client reads the right tip off the certificate's bytes", "statement": "The bytes returned as hash_tree by icrc3_get_tip_certificate parse, by the format of the IC interface specification, to a tree whose root hash is the certified data and whose two leaves are the LEB128 index and the hash of the last block; and any other bytes that parse to a tree with that root hash and have both leaves tell the client the same index and hash, unless SHA-256 collides.", "quantifier": "every reachable state with at least one block; every byte string offered to the client; every hash function with 32-byte results", "why_tests_cant": "Tests read the one tree the ledger wrote. That nobody else can make up bytes a client would accept is a claim about all byte strings.", "anchors": ["cycles-ledger/src/storage.rs: State::get_tip_certificate, populate_last_block_hash_and_hash_tree", "cycles-ledger/src/main.rs: icrc3_get_tip_certificate"]}
{"id": "C73", "title": "Each message does a bounded amount of work", "statement": "However large the ledger has grown, one message writes a bounded amount of it. A call that is turned down writes nothing. An accepted call adds one block, writes at most 2 balances and 101 approvals and adds or forgets at most 100001 remembered transactions; only if its outgoing call fails within the same message is it more, and then at most 3 blocks, 3 balances, 302 approvals and 300001 remembered transactions. The end of an outgoing call adds at most 2 blocks and writes at most 2 balances, 201 approvals and 200000 remembered transactions. Upgrades write none of these. A message other than an upgrade opens or closes at most one waiting call.", "quantifier": "every reachable state of any size, every call, answer, upgrade and change of the cycle balance", "why_tests_cant": "A test runs with a table of some size; the claim is that no size of the tables and no backlog of expired entries makes one message write more than this.", "anchors": ["cycles-ledger/src/storage.rs: prune, prune_approvals, prune_transactions, reimburse, reimburse_approval, process_transaction", "cycles-ledger/src/main.rs: update endpoints"]}
{"id": "C74", "title": "A client that retries gets its transaction executed exactly once", "statement": "Take a transaction with created_at_time that a client submits any number of times (because answers got lost), with anything else happening in between, upgrades included. Each accepted submission is one block with that transaction, no other event adds one, and over the whole history there is at most one. Every answer that points to a block (Ok or Duplicate) points to that one block, now and ever after, unless SHA-256 collides. Once ledger time has passed created_at_time + 24h + 60s and no block carries the transaction, none ever will: giving up is safe. And one submission at a good moment suffices: a transfer submitted while its window is open and the account can pay has been executed exactly once afterwards, whatever was tried before (the corner of C13 excepted).", "quantifier": "every reachable state, every history from it, every transaction with created_at_time", "why_tests_cant": "it is about every interleaving of submissions, lost answers, other traffic, prunings and upgrades over unbounded histories", "anchors": ["cycles-ledger/src/storage.rs::check_duplicate", "cycles-ledger/src/storage.rs::process_transaction", "cycles-ledger/src/storage.rs::prune_transactions", "cycles-ledger/src/main.rs::icrc1_transfer"]}
{"id": "C75", "title": "The log is all the ledger remembers", "statement": "Take two ledgers with the same block log, the same outgoing calls in flight and the same cycles, whatever has happened to each of them otherwise (refused calls, upgrades, other settings, pruning at other moments, learnt canister ids). Then they cannot be told apart: for every sequence of later events they give the same answers, record the same blocks, make the same outgoing calls and stay in agreement, and every balance, the total supply and every usable allowance read the same. The answers are equal except that a Duplicate answer to a canister creation may or may not name the canister, and that a call refused by both because its transaction is too old or its allowance has run out (or because both trap) may be refused for a different one of the reasons that apply. Excluded are an event in the very nanosecond in which a logged allowance expires and an event whose transaction shares its hash with a different one. In particular an upgrade while nothing is in flight goes unnoticed.", "quantifier": "every pair of reachable states with the same log, calls in flight and cycles; every sequence of later events", "why_tests_cant": "it compares all pairs of histories that lead to one log and all their continuations; a test compares two runs", "anchors": ["cycles-ledger/src/storage.rs::State", "cycles-ledger/src/storage.rs::prune", "cycles-ledger/src/storage.rs::check_duplicate", "cycles-ledger/src/storage.rs::allowance", "cycles-ledger/src/main.rs::post_upgrade"]}
{"id": "C76", "title": "A message touches only the accounts it names", "statement": "A call changes the balance of no account other than those it names: the receiver of a deposit, both sides of a transfer, the account of the approver, the account a withdrawal or creation is paid from. It changes no allowance other than the one it sets or draws on. When a withdrawal or creation is answered later, the same holds for the accounts named by that earlier call. An upgrade changes no balance and no allowance. Accounts of one owner with different subaccounts are different accounts; only a missing and an all-zero subaccount are the same.", "quantifier": "every history since installation, every next message (call, answer or upgrade), every account, every pair of owner and spender, every later time", "why_tests_cant": "The claim is about all accounts that a message does not name, in every reachable state, including refunds of calls made long before.", "anchors": ["cycles-ledger/src/storage.rs: transfer, approve, withdraw, create_canister, reimburse, debit, credit, to_account_key", "cycles-ledger/src/main.rs: icrc1_transfer, icrc2_transfer_from, icrc2_approve, withdraw, withdraw_from, create_canister, create_canister_from, deposit, post_upgrade"]}
{"id": "C77", "title": "The kind of a block can be read off the block", "statement": "A reader can classify every block by looking at it alone. A mint that charges 100_000_000 is an initial balance or an accepted deposit. A mint without a fee is the refund of an accepted withdrawal (memo of 32 bytes 0xFF) or creation (32 bytes 0xFD) from that account. A burn with a memo of 32 bytes 0xFE paid for an accepted creation; any other burn has a memo that decodes, as CBOR, to the receiver of an accepted withdrawal. A transfer or approval was asked for with exactly these arguments, except that an approval with a memo of 32 bytes 0xFF may also give back the allowance of a failed call; that mark can be forged by the owner of the account.", "quantifier": "every history since installation, every block", "why_tests_cant": "Deposits, transfers and approvals carry memos chosen by callers, so that no choice of memo makes a block look like another kind has to hold for all arguments and all histories.", "anchors": ["cycles-ledger/src/storage.rs: PENALIZE_MEMO, CREATE_CANISTER_MEMO, REFUND_MEMO, mint, withdraw, create_canister, reimburse", "cycles-ledger/src/memo.rs: encode_withdraw_memo"]}
{"id": "C78", "title": "Whoever may spend, can", "statement": "An icrc2_transfer_from, icrc2_approve, withdraw, withdraw_from, create_canister, create_canister_from or deposit that is in order is never refused and never traps: with the right (or no) fee, a memo of at most 32 bytes, a created_at_time absent or in the window, permitted parties, a usable allowance of at least amount plus fee (the owner needs none), a balance of at least amount plus fee and no earlier identical transaction (a transfer from an account to itself also needs balance plus amount below 2^128, an approval an expiry in the future, a deposit more than the fee and room in the 128-bit supply, a withdrawal a positive amount and a receiver that is not self-authenticating), the call is accepted and recorded as the next block; withdrawals and creations then make exactly the outgoing call asked for, provided the canister holds the cycles. Conversely, an answer that blames the allowance is given only if what can be used is below amount plus fee, and the number in it is what can be used.", "quantifier": "every reachable state, caller, time and arguments meeting those conditions", "why_tests_cant": "It rules out any hidden further reason for a refusal, in every state and for all arguments, including the exact boundary of allowance, balance and expiry.", "anchors": ["cycles-ledger/src/storage.rs: transfer, approve, use_allowance, withdraw, create_canister, deposit", "cycles-ledger/src/main.rs: icrc2_transfer_from, icrc2_approve, withdraw_from, create_canister_from"]}
{"id": "C79", "title": "An answer whose processing is stopped midway hurts only its own call", "statement": "If the Internet Computer stops the processing of the answer to a withdraw(_from) or create_canister(_from) midway, at whatever point, then the caller gets an error, nothing recorded changes, and every other waiting call goes on waiting. From then on, whatever calls, answers and upgrades follow, every answer anybody gets is the same as if that call were still waiting and the ledger had been given the cycles that came back. The stopped call itself is lost for good: later answers to it are ignored, and it is never refunded, so the account keeps fewer refunds than burns.", "quantifier": "every reachable state with a waiting call, every point at which its call-back is stopped, every amount of cycles that came back, every history afterwards", "why_tests_cant": "the point at which a limit is hit cannot be chosen in a test, and the comparison is over all continuations", "anchors": ["cycles-ledger/src/storage.rs: withdraw, create_canister, reimburse, reimburse_approval", "cycles-ledger/src/main.rs: withdraw, withdraw_from, create_canister, create_canister_from"]}
{"id": "C80", "title": "The ledger behaves like a ledger that is nothing but its log", "statement": "There is a small ledger that keeps only the list of blocks, the canisters it created, the calls that wait for an answer and its cycles, and works out every balance, allowance, duplicate and the supply from the blocks each time. From installation on, whatever calls, answers, upgrades and stopped call-backs happen, the cycles ledger writes exactly the blocks of that small ledger, holds the same cycles, has the same calls waiting, gives the same answers, and its balances, supply and allowances are those worked out from the blocks. The answers differ only where the cycles ledger has forgotten a transaction from before the window (it refuses it with another reason), where it still remembers that an allowance of a transfer ran out (it says so), and in the text of a trap.", "quantifier": "every installation argument and every history of events from it in which no allowance runs out in the very nanosecond of an event and no two different transactions share a hash", "why_tests_cant": "it is a simulation between two programs over all histories; a test compares them on a few", "anchors": ["cycles-ledger/src/storage.rs: transfer, approve, deposit, withdraw, create_canister, mint, reimburse, reimburse_approval, process_transaction, prune, check_duplicate", "cycles-ledger/src/main.rs: init, post_upgrade, all update methods"]}
{"id": "C81", "title": "A block number in an answer is a lasting receipt", "statement": "Every block number that an answer names stays valid for ever: at any later point of the history, fetching it returns exactly the block the answer spoke of. For a success, or for the burn named by a failed withdrawal or creation, that is the transaction the caller asked for, stamped with the time of the call. For a Duplicate error it is a block with the very transaction of the call. For a refund it is a mint to the paying account of what came back less the fee, stamped with the time of the answer. For an approval given back it is an approval of the paying account for the spender. No block number is ever given out twice, neither by two answers nor for two purposes in one answer (a Duplicate error, which repeats a number on purpose, aside). Numbers follow the order in which the calls were made, whatever the order of the answers.", "quantifier": "every installation, every history of events after it, every answer in the history and every later point of it; for Duplicate errors up to hash clashes", "why_tests_cant": "the number is given out at one point of a history and read at any later one, with calls, answers, crashes, pruning and upgrades between; calls waiting at the same time must not get each other's numbers", "anchors": ["cycles-ledger/src/storage.rs: process_transaction, emit_block, withdraw, create_canister, reimburse, reimburse_approval, check_duplicate, get_blocks", "cycles-ledger/src/main.rs: all update methods, icrc3_get_blocks"]}
{"id": "C82", "title": "Books kept from calls and answers are right", "statement": "Between any two points of a history, the balance of every account changes by exactly what the calls and their answers say: an accepted call takes its amount and the fee from the account that pays (an approval only the fee, a deposit nothing), an accepted transfer or deposit brings the receiver the amount (a deposit less the fee), an answer that names a refund block brings the paying account what came back less the fee, and an answer that names an approval block costs it one fee. Refused calls, upgrades and call-backs stopped midway change no balance. So an account that no accepted call makes pay never loses anything.", "quantifier": "every installation, every history, every two points of it, every account", "why_tests_cant": "the sum runs over a whole history with any mix of concurrent calls, answers, failures and upgrades", "anchors": ["cycles-ledger/src/storage.rs: transfer, approve, deposit, withdraw, create_canister, mint, reimburse, reimburse_approval, credit, debit", "cycles-ledger/src/main.rs: all update methods"]}
{"id": "C83", "title": "Stable memory alone holds the ledger", "statement": "Everything the ledger answers from is in stable memory. At every point of every history, reading the numbered regions back (the block log from its index and its bytes, the balances, allowances, expirations, transaction records and the configuration) gives exactly the current ledger: same blocks, balances, allowances, deduplication records, configuration, supply, tip hash and certified tree. Two ledgers with the same stable memory are the same ledger. The new code after an upgrade starts from what it reads there. The stored bytes of the log and its index are only ever extended at the end. Memory with nothing in it reads as a ledger before installation.", "quantifier": "every reachable ledger, every upgrade, every history after it", "why_tests_cant": "it must hold after any history and for blocks of any shape; a test reads back a few states", "anchors": ["cycles-ledger/src/storage.rs: STATE, BLOCK_LOG_INDEX_MEMORY_ID .. CONFIG_MEMORY_ID, Cbor::to_bytes, Cbor::from_bytes, compute_last_block_hash_and_hash_tree, compute_total_supply, emit_block", "cycles-ledger/src/config.rs: Config::to_bytes, Config::from_bytes", "cycles-ledger/src/main.rs: post_upgrade"]}
{"id": "C84", "title": "Allowances follow from calls and answers", "statement": "Whoever sees all calls and their answers can keep exact account of every allowance without looking at the ledger: an accepted approval sets the amount (capped at 2^128-1) and expiry, an accepted transfer, withdrawal or canister creation by a spender for somebody else lowers it by the amount and the fee, and an answer that names an approval block gives back what came back less two fees on top of what is still usable then, with the expiry of what is usable, or else of the allowance the call had used. Refused calls, upgrades and stopped call-backs change nothing. What they have written down is what can be used and what icrc2_allowance reports, except that at the very instant of expiry the query may still show the old one.", "quantifier": "every installation, every history, every pair of accounts, every query time not before the ledger clock", "why_tests_cant": "allowances are touched by owner and spender calls and by late answers in any interleaving", "anchors": ["cycles-ledger/src/storage.rs: approve, transfer, withdraw, create_canister, reimburse_approval, record_approval, use_allowance, allowance", "cycles-ledger/src/main.rs: icrc2_allowance, icrc2_approve, icrc2_transfer_from, withdraw_from, create_canister_from"]}
{"id": "C85", "title": "What the ledger has shown determines all of its memory", "statement": "Write down what users are shown of a ledger from its installation on: every block in order, with whether an answer named it as an approval given back, and every canister an answer named as created. Two ledgers with the same record, whatever their settings, refused calls, upgrades, stopped call-backs and the moments between, read the same in every query about tokens, allowances, blocks, the certified tip and table sizes. If they also hold the same cycles and wait for the same answers, every later sequence of events gets the same answers from both, to the letter, with no exception for any moment or any clash of hashes. For histories in which no approval was given back and no canister created, the log alone decides.", "quantifier": "every pair of installations and histories of events with the same record; every later sequence of events", "why_tests_cant": "it compares all pairs of histories with one record, including all prunings and upgrades in between, and all their continuations", "anchors": ["cycles-ledger/src/storage.rs::State", "cycles-ledger/src/storage.rs::prune", "cycles-ledger/src/storage.rs::reimburse", "cycles-ledger/src/storage.rs::reimburse_approval", "cycles-ledger/src/storage.rs::create_canister", "cycles-ledger/src/main.rs::init", "cycles-ledger/src/main.rs::post_upgrade"]}
{"id": "C86", "title": "Every answer can be read on the wire, and means one thing", "statement": "The bytes of every answer the ledger can give (to every update call at once or when its outgoing call ends, and to the queries for balances, supply, fee, allowance, allowances, blocks and the tip) are a Candid message of the type its interface file declares for that method: a reader that knows only the Candid rules gets back exactly the table of types and the value, with no byte left over and no number that does not fit. No two answers of a method look alike: equal bytes come from equal answers, down to every field, every block and the text of an error. Every name of the interface file stands in the table as the number that the Candid rules give it, and the bytes start with the letters DIDL.", "quantifier": "every reachable state, every event that can happen next, every query with every argument, every text; for the second part every pair of states and answers", "why_tests_cant": "it is about all values of all answer types at once, including sizes and error cases a test never provokes, and about all pairs of answers", "anchors": ["cycles-ledger/cycles-ledger.did", "cycles-ledger/src/endpoints.rs", "cycles-ledger/src/main.rs::icrc3_get_blocks", "cycles-ledger/src/main.rs::icrc103_get_allowances", "cycles-ledger/src/main.rs::icrc1_transfer", "cycles-ledger/src/main.rs::withdraw", "cycles-ledger/src/main.rs::create_canister"]}
{"id": "C87", "title": "Answers are small enough to be sent", "statement": "The answer to an update call takes at most 300 bytes on the wire besides the text of an error, whatever was called and whatever the history. A page of icrc3_get_blocks takes at most 250 bytes and 500 for each block it serves, and it serves at most the configured number of blocks; so it stays below two megabytes if that number is at most 4000 (the default is 100). A page of icrc103_get_allowances takes at most 80,240 bytes, whatever is asked for. The configured number itself has no upper bound: for a large one there are pages longer than any given number of bytes.", "quantifier": "every reachable state with at most 2^64 blocks, every event that can happen next, every query with every argument, every configuration", "why_tests_cant": "the largest block, memo, account, allowance and error are needed at once, and a test sees one page of one ledger", "anchors": ["cycles-ledger/cycles-ledger.did", "cycles-ledger/src/storage.rs::get_blocks", "cycles-ledger/src/storage.rs::get_allowances", "cycles-ledger/src/config.rs::Config", "cycles-ledger/src/endpoints.rs", "cycles-ledger/src/main.rs::icrc3_get_blocks", "cycles-ledger/src/main.rs::icrc103_get_allowances"]}
{"id": "C88", "title": "A client that reads answers by name learns what the ledger did", "statement": "A client reads the bytes of an answer and looks fields and alternatives up by the names of the interface file. In the answer to an update call it finds exactly the block of the transaction, the blocks of the refund and of the approval given back, the block and the canister of an earlier transaction, the balance, the allowance, the fee, the ledger's time, the error code, the new canister, the invalid receiver and the text that the ledger told, and nothing where the ledger told nothing; exactly the one error that was given is present, with exactly the rejection code. From the queries it gets back the balance, the supply, the fee, the allowance with its expiry, the length of the log with every block's number and value, every listed allowance with its accounts, and the certificate with its hash tree.", "quantifier": "every reachable state, every event that can happen next, every answer and text, every query with every argument", "why_tests_cant": "a field written under another field's name has the right type and still reads back; only a statement about every field of every error shows that none is mixed up", "anchors": ["cycles-ledger/cycles-ledger.did", "cycles-ledger/src/endpoints.rs", "cycles-ledger/src/main.rs::icrc3_get_blocks", "cycles-ledger/src/main.rs::icrc103_get_allowances", "cycles-ledger/src/main.rs::withdraw_from", "cycles-ledger/src/main.rs::create_canister_from"]}
{"id": "C89", "title": "A message is read as the request that is in it by name", "statement": "The ledger takes a message for a request exactly if the fields of the request are in it under the names of the interface file: whatever the order of the fields and the layout of the table, whatever other fields there are, and an optional field that is missing or null is taken as not given. Every request that a client writes by the interface file is read back exactly, so two different requests never have the same bytes. A subaccount that is not 32 bytes long, a principal of more than 29 bytes or a missing amount is not understood. Every message that is understood is a call with all its numbers in range, that is, one of the calls that the other properties speak about. A deposit counts the cycles that came with the message.", "quantifier": "every message (every sequence of bytes), every method with arguments among the update calls, balances, allowances, lists of allowances and blocks, every request", "why_tests_cant": "messages range over all byte sequences and all clients' layouts; tests send what one client library writes", "anchors": ["cycles-ledger/cycles-ledger.did", "cycles-ledger/src/endpoints.rs: DepositArg, WithdrawArgs, WithdrawFromArgs, CreateCanisterArgs, CreateCanisterFromArgs, CmcCreateCanisterArgs, SubnetSelection", "cycles-ledger/src/main.rs: deposit, icrc1_transfer, icrc2_transfer_from, icrc2_approve, withdraw, withdraw_from, create_canister, create_canister_from"]}
{"id": "C90", "title": "Whatever bytes are sent, the ledger does what was asked for by name, and the answer can be checked by bytes alone", "statement": "Take any course of messages with arbitrary bytes, sent by anyone to any update method, mixed with upgrades and ends of outgoing calls. What happens to the ledger is exactly what the calls do that are in the messages by the names of the interface file, in their order; a message that asks for no call of its method changes nothing and is not answered; so every property of the reachable states holds whatever is sent. A client that writes a call by the interface file has that call executed, and what it reads in the bytes of the answer, by the names of the interface file, is what the ledger answered. A query written by the interface file returns bytes in which the balance, allowance, list of allowances or blocks asked for stand under their names. If the client reads a block number in the answer of a call, given at once or after an outgoing call, then at any later time, whatever has been sent by others in between, the bytes that a request for this block returns contain exactly this block, with the client's transaction and the time of the call (if blocks are served at all).", "quantifier": "every course of messages with arbitrary bytes, methods, callers and attached cycles, every call and query, every later state", "why_tests_cant": "arbitrary bytes from arbitrary senders, in any order, between a call and the check of its receipt", "anchors": ["cycles-ledger/src/main.rs: the #[update] and #[query] functions", "cycles-ledger/cycles-ledger.did"]}
{"id": "C91", "title": "The ledger can be audited by bytes alone", "statement": "Whatever bytes have been sent to the ledger by anyone since its installation, whoever has downloaded the whole log, reading the values and numbers of the blocks under their names in the bytes of answers to requests for blocks, can compute from it every number that the ledger gives in the bytes of its answers: every balance, every allowance with its expiry that has not expired, and the supply. As long as the ledger serves blocks, the log can be downloaded, and queries for balances and allowances are always answered.", "quantifier": "every course of messages with arbitrary bytes since the installation, every downloaded log, every account, spender and time", "why_tests_cant": "tests read the log through the same library that wrote it, for a few histories", "anchors": ["cycles-ledger/src/main.rs: icrc3_get_blocks, icrc1_balance_of, icrc1_total_supply, icrc2_allowance", "cycles-ledger/cycles-ledger.did"]}
{"id": "C92", "title": "Sending the same bytes again does nothing twice", "statement": "A message, laid out in any way that the interface allows, asked for a call that names its time of creation, and the client read a block number in the bytes of the answer. Whatever bytes anyone sends after that, if the same sender sends the same bytes to the same method once more, nothing changes. Within a day and a minute of the time of creation the repeated message is always answered at once, and in the bytes of the answer the number of the first block stands under Duplicate, or two different recorded transactions have the same hash. The same holds when the first answer came only after an outgoing call, as for a withdrawal or a creation.", "quantifier": "every course of messages with arbitrary bytes before, between and after, every message that asks for a call with a time of creation, every time of the repetition", "why_tests_cant": "a retry may come at any time after any other messages; tests retry at once with the same library", "anchors": ["cycles-ledger/src/main.rs: the #[update] functions", "cycles-ledger/src/storage.rs: check_duplicate, prune_transactions", "cycles-ledger/cycles-ledger.did"]}
