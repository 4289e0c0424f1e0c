# Formal model of the cycles ledger: design

The code verified is `dfinity/cycles-ledger` at the commit in `/repo`
(crate `cycles-ledger`, version 1.0.6).  The model is written in Rocq
(Coq 8.16.1), using the standard library and std++.

## 1. Shape of the model

Model (definitions only; every definition cites the lines of `/repo` it models):

| file (rocq/theories) | models |
|---|---|
| `Base.v` | machine integers (u64/u128 as `N` with explicit checked / saturating / wrapping operations), outcomes (`OOk`, `OErr`, `OTrap`) |
| `Types.v` | principals, accounts, memos, operations, transactions, blocks, configuration constants, generic values, CBOR values, error types, the environment record `Env` |
| `Codec.v` | `lib.rs` value conversions, `FlattenedTransaction`, `compact_account.rs`, `memo.rs`, `phash`, `Block::to_value/from_value`, LEB128 |
| `Cbor.v` | the CBOR byte format written and read by `ciborium` for stored blocks |
| `State.v` | `storage.rs` `State` and its methods, `emit_block`, pruning, approvals |
| `Ledger.v` | `storage.rs` operations: mint, deposit, transfer, approve, withdraw, create_canister, reimburse, the block and allowance queries |
| `ValueHash.v` | the hash of generic values (crate `icrc_ledger_types`) and of the certified hash tree (crate `ic_certified_map`) over an arbitrary SHA-256; an instance `sha_env` of `Env` |
| `TipBytes.v` | the CBOR bytes of the witness in a tip certificate |
| `Sha256.v` | SHA-256 itself (FIPS 180-4), used in examples |
| `Canister.v` | `main.rs` endpoints, init, post_upgrade, queries; error conversions of `lib.rs`; the canister as a state machine over messages |

Specification vocabulary, written without the model's helpers:

| file | content |
|---|---|
| `Spec.v` | replay of the log (balances, allowances), the time window, hash clashes |
| `ApiSpec.v` | what a client reads off a call and its reply: rejected, duplicate, exact effects of transfers, burns and refunds |
| `HashSpec.v` | byte strings that get hashed, collisions among them, shape of a block value, what a client checks about a log and its certificate |
| `Properties*.v` (heads of sections) | small definitions used by one property only, next to it |

Proofs:

| file | content |
|---|---|
| `Effects.v`, `Steps.v`, `Inv.v`, `World.v` | every message refines a few primitive transitions; the invariant; it holds in every reachable world |
| `CallFacts.v`, `CallCases.v`, `StepFacts.v`, `EventFacts.v` | exact characterisation of acceptance and effect of every call and event |
| `AllowFacts.v`, `RefundFacts.v`, `AsyncFacts.v`, `DedupFacts.v`, `CreateFacts.v`, `QueryFacts.v`, `CodecFacts.v`, `CodecProofs.v`, `CborProofs.v`, `HashProofs.v` | lemmas by topic |
| `Properties*.v` | the theorems (`Cnn_...`), `Print Assumptions` for each, and `Example`s (`Cnn_case`) showing that a concrete non-trivial case meets the hypotheses |
| `Demo.v` | a concrete environment and history used by the examples and witnesses |

Names: `Cnn_..._partial` proves less than the English property (the comment above
says what is missing); `Cnn_..._refuted` is a reachable counterexample to the
property as one would expect it, i.e. a finding about the code (section 5).

### Execution model

The IC runs one message at a time.  An update message that traps leaves the
state as before the message.  An `await` ends a message: everything before it
is committed, everything after it runs as a separate message (the call-back).
The model therefore has a `world` (ledger state, clock, calls in flight, cycle
balance) and events

* `EvCall now caller call`   an update call arrives,
* `EvReply now id answer`    the management canister / the CMC answers an
  outstanding call (any answer, any order, any delay),
* `EvUpgrade now args`       the canister is upgraded (heap dropped),
* `EvCrash now id refund`    the processing of an answer is stopped midway by the
  IC (instruction or memory limit, at whatever point): nothing it did remains and
  it is not repeated,
* `EvConsume n`, `EvTopUp n` cycles the canister pays for running, or is given.

A call or an upgrade that is stopped midway leaves everything as it was and needs no
event: since the theorems are about every sequence of events, they hold with any
number of such attempts in between.

`step : world -> event -> world * response` is a total computable function;
reachability closes `init` under `step` for every event with a monotone clock
and arguments in the range of their candid types.  Queries are pure functions
of the state and the time.

### Parameters

The hash of a generic value (`vhash`), the root hash of a hash tree (`troot`)
and the position of a principal in the order used by the B-tree (`prank`) are
fields of a record `Env` over which every definition and theorem is
universally quantified.  Assumptions about them (for example that the empty
principal is least) appear as explicit hypotheses of the theorems that use
them.  Collision freedom is never assumed: theorems conclude "... or here is a
collision".  `ValueHash.v` gives the actual hash functions, over any SHA-256 with
32-byte results (hypothesis `sha_ok`, proved for the instance of `Sha256.v`); C48,
C49, C70 and C72 are about them.

## 2. Plan per property

Invariants are proved by showing that each message refines a sequence of a few
primitive transitions (commit a block together with its effect on balances and
allowances; drop an expired approval; drop an old deduplication entry; record
a canister id; change configuration) and that each primitive transition
preserves the invariant.

| property | model and proof |
|---|---|
| C01 | invariant `total_supply = sum of balance map`, induction over events |
| C02 | replay function over Z on the log in `Spec.v`; invariant: balance = replay |
| C03 | replay of approvals with expiry; invariant relating live entries |
| C04 | prefix relation over runs |
| C05 | invariant on consecutive blocks and cached parent hash |
| C06 | invariant on cached tree / certified root; upgrade recomputation |
| C07 | invariant: hash table and timestamp set are in bijection with the blocks not yet pruned; pruned implies TooOld |
| C08 | same invariant, completeness direction |
| C09 | same invariant plus injectivity of the transaction encoding |
| C10 | invariant on blocks plus exact characterisation of the check |
| C11 | case analysis of every error path of every endpoint |
| C12-C14, C16, C17, C21 | success characterisation of each endpoint |
| C13 | progress theorem using the supply invariant |
| C15 | per event case analysis |
| C18 | from the success characterisation |
| C19 | expected to be refuted at `now = expires_at` (strict vs non-strict); proved elsewhere |
| C20 | invariant on approvals and queue; prune lemmas; exactly which event logs the one message that can occur |
| C22-C24 | theorems about the two halves of the asynchronous calls with arbitrary states in between; a call-back that traps is in the corner of C25 |
| C25 | refuted in one corner; proved that a call-back that traps is in that corner |
| C26 | expected to be refuted; the exact weaker guarantee is proved, and that with no call in flight the full claim holds over every history |
| C27 | conservation invariant over runs |
| C28 | direct, all argument shapes |
| C29 | loop invariant; wrap-around corner stated separately |
| C30 | sorted-list argument on the range scan |
| C31 | invariants C01, C05, C06 give equality of the recomputed cache |
| C32 | congruence of every operation under normalisation |
| C33, C34 | invariants on the log and the approvals |
| C35-C38 | codec round trips by structural induction |
| C39 | absence of traps, using the invariants |
| C40 | case analysis |
| C41 | induction over the list of initial balances |
| C42 | from the replay of C03 |
| C43, C44 | expected to be refuted; witnesses |
| C45, C46 | the expected behaviour is refuted by witnesses; the actual behaviour follows from C07, C08, C09, C13 |
| C47 | invariant relating the two deduplication tables; prune lemmas |
| C48 | injectivity of the representation-independent hash on values of the ledger's shape, by structural induction, up to explicit collisions |
| C49 | backward induction along the chain of parent hashes from the certified tip |
| C50 | one decision table per call in `AnswerSpec.v`, on queries and log only; case analysis of each call along its table |
| C51 | `IndexerSpec.v` reads generic values by field name; block by block agreement with the replay of C02 and C03; supply by exchanging sums over accounts and blocks |
| C52 | C49 and C51 |
| C53 | potential argument: balance minus the sum of live allowances never falls in an event that is not a call by the owner; the sums range over the log's live allowances (C03) |
| C54 | every event's new blocks by cases (`event_accounts`), the origin of waiting calls as an invariant along the history, then induction over the history |
| C55 | Metadata entries read as a list; the fee from the block invariant and step_accepted; memo bound from tx_ok and C39_traps; block bound from the C29 theorems; index by cases, its text by a reader that knows the specification of textual principals only (TextProofs.v). |
| C56 | From the complete answer tables of C50: a call is turned down iff one rule applies, and the rules see only what another call leaves unchanged (balances and live allowances via the log, duplicates via the log when there is no hash collision). The final states are compared through the exact effects and the log. C56_expiring_allowance_refuted shows the nanosecond corner. |
| C57 | `ConfigCodec.v` models the CBOR form of the stable cell. The round trip follows from the CBOR reader being a left inverse on well-formed values. The primitive ledger steps leave the configuration alone, so the history statement is an induction over events with C31 for upgrades. |
| C58 | `Depositor.v` puts the depositor, the ledger and the messages between them into one transition system. An invariant over histories ties requests, answers and credited blocks together; C21 gives the effect of one deposit. The loss of the configuration is an invariant of the part of the history after the upgrade. |
| C59 | PropertiesBacklog. The backlogs of a moment t are counted by two filters over the stored tables. Every primitive step at or after t is shown not to increase them (new approvals expire in the future, new transactions lie in the window), pruning is shown to take entries of the backlog while there are any, and the two are combined by induction over the history. |
| C60 | SchemaSpec states the schema as a predicate on generic values, without reference to the ledger's block type. PropertiesSchema proves it for the value of every block that satisfies the block invariant, by lemmas about insertion into ordered maps. |
| C61 | PropertiesControl. Derived from the complete description of answers (C50): none of its rules applies. C50's account of what is remembered is made precise for this: only transactions with a created_at_time are. |
| C62 | Named canisters: `created_for` says what must be in the history (request, answer of the CMC, reply); invariant over histories that explains every waiting call and every noted canister id; only the callback with a successful answer notes an id. |
| C63 | `reply_delta`: the effect of one answered call-back on balances, supply, blocks, cycles, waiting calls and the allowances read off the log is a function of the waiting call and the answer; two such effects commute. `C63_order_of_answers`; `C63_case` shows that the expiry exception is real. |
| C64 | Case analysis over events with the exact supply change of a recorded transaction (`recorded_supply`) and of a refund (`refund_effect`); `C64_each_block_earns_the_fee` is the identity, `C64_backing_grows` its sum over truthful histories by induction. |
| C65 | Invariant: refunds in the log plus the amounts of waiting calls are at most the burns in the log, per account, for both the amounts and the counts; induction over events. `C65_refunds_within_burns`, `C65_one_refund_per_burn`. |
| C66 | Inductive relation `pages_over_time`: each page is served by its own reachable world at its own time. Induction over the pages with the lower bound of the cursor, using the one-page facts of C30. `C66_listing_while_changing`. |
| C67 | New model file `Http.v` (path of a URL, rounding of integers to doubles, names and values of the gauges). Rounding is compared with an independent definition of the nearest double; the counts follow from the state invariant. `C67_metrics_page`, `C67_other_pages`. |
| C68 | New model file `Cmc.v`: the stand-in's `create_canister` (cycles accepted, simulated failures, the retry loop, the panic after the await) and the two canisters with the messages between them. Invariant per creation over all runs; the honest runs project to the truthful runs of C27. `C68_creations_are_exact`, `C68_told_is_final`, `C68_tokens_are_backed`; `C68_overstated_refund_refuted` and `C68_rejected_after_accepting_refuted` show that the two conditions of the last are needed. |
| C69 | Induction over the list with the complete answer table of C50 for each call and C22 for its effect; the backing is C27. |
| C70 | The stored bytes are decoded and turned into a generic value as `ciborium_to_generic_value` does; both maps are computed field by field for every operation and every combination of optional fields, and compared hash by hash. `PropertiesStored.v`. With signed LEB128 for integers the claim is false (`C70_signed_ints_refuted`): which one the crate uses cannot be seen from /repo. |
| C71 | The domain of each table is contained in the list of what the log's blocks credit, approve or carry as a timestamp (from the invariant that ties tables to the log), whose length is counted; payment from C64. `PropertiesStorage.v`. |
| C72 | `TipBytes.v`: the CBOR form of a hash tree. The client (parse, compare the root hash, look up both leaves, read the index) is written from the IC specification; reading what was written by induction on the tree; uniqueness from the lemma behind C49. `PropertiesTip.v`. |
| C73 | `work_within` (PropertiesWork.v) counts the keys at which two states differ, per table. The bounds of one transaction, one prune and one refund are added up for each kind of message. Bounds writes, not instructions: the time of a single map access is not modelled. |
| C74 | count the blocks that carry the transaction along a history: each event adds as many as it accepts submissions (what events record is C54); at most one by C07; answers by C09; the window by C10; the last clause by C13 |
| C75 | two states with one log agree on balances, supply, hash chain and usable allowances (the invariants of C01-C06, C20) and on which transactions inside the window are known (C10); hence every check decides alike and every effect appends the same block; induction over the events |
| C76 | `PropertiesParties.v`: `paid_or_charged`/`allowance_touched` list what a call names, `about` the call a message belongs to. Proved from C54 (which blocks a message adds), C02 and C03 (balances and allowances are those of the log): no added block concerns another account or pair. |
| C77 | `PropertiesMarks.v`: `kind_of` is a reader's function of one block with literal memos and a CBOR reader of its own; `kind_means` says what must have happened. Proved from C54, C41 and C37. A forged mark on an approval is exhibited (`_refuted`). |
| C78 | `PropertiesSpend.v`, from `C50_answer`: none of the listed conditions holds, so the call is accepted; stated with `usable`, `icrc1_balance_of` and literal conditions. A transfer to the same account needs balance plus amount below 2^128, as in C13. |
| C79 | `PropertiesCrash.v`: a simulation between the world after `EvCrash` and the one in which the call still waits (`all_but`), preserved by every event; that a call that does not wait never waits again; and the counting invariant of C65 with one burn in reserve. |
| C80 | `RefLedger.v`: the small ledger as an executable function on events, with none of the tables, caches or queues of the code. `PropertiesReference.v`: a simulation relation (`keeps`), installation, each event; the refusals are matched rule by rule with the decision tables of C50; the two exclusions are those of C75. |
| C81 | `PropertiesReceipts.v`: `own_block`, `refund_block` and `approval_block` read the numbers off an answer; an invariant of histories (`history_ok`) says that each answer's receipt holds in the current log, that the call a waiting outgoing call belongs to asked for the block it waits for, and that no number was given out twice or belongs to a waiting call. Induction over the events; the last message of a waiting call is analysed by cases (`resume_ended`). |
| C82 | `PropertiesBooks.v`: what one message books is read off the call and its answer (`booked_in`, `booked_out`); one lemma per kind of event, using the analysis of the last message of a waiting call from C81 and the exact effect of a recorded transaction; induction over the history. |
| C83 | `StableMemory.v` models the regions: the log as the bytes of the blocks one behind the other with the list of their ends, the configuration as bytes, the maps as maps (their layout belongs to the crate ic-stable-structures). `PropertiesStable.v`: induction over the log with the round trip of C35 and C57, the cache recomputed equals the cache kept (invariant). Assumes 32-byte hashes and a configuration within the ranges of its types, as C35 and C57 do. |
| C84 | `PropertiesTrack.v`: the tracker (`tracked_step`) is a fold over calls and answers only. Invariant: it equals the allowance the log gives, and each waiting call that draws on the pair is noted with its amount and the expiry it used. One lemma per kind of event, from the blocks each adds (C81's analysis of the last message of a waiting call); then C03. |
| C85 | `PropertiesRecord.v`: the state is rebuilt from the record by replaying each block with the prunings that follow it (none after an approval given back, two after a refund, one otherwise) and each noted canister; proved for installation and for each event, up to settings and heap log; the equality of all later answers is the simulation of C31. It strengthens C75, whose two exclusions are gone, at the price of the marks on the blocks. |
| C86 | `Candid.v`: the Candid format (types, values, writer, reader); `CandidProofs.v`: reading undoes writing for every well-typed message; `Wire.v`: the interface file's types and the values of all answers; `WireFacts.v`: every answer has its declared type; `WireInj.v`: values of different answers differ; `PropertiesWire.v`: all answers of reachable states are within range (times are those of the call, by C50's rules; block values by their construction; allowances by the invariant) |
| C87 | `PropertiesSize.v`: the length of every part of a value (numbers below 2^128 take 19 bytes, principals 31, accounts 65, transactions 390, blocks 485) added up over the values of `Wire.v`; amounts, blocks and principals in answers are bounded by C50's rules, C81's receipts and C62's history; `_refuted`: deposits one after the other under a large limit |
| C88 | `PropertiesNames.v`: a client with paths of names, independent of how the values are built; by C86 it reads the value, then every answer is worked out for every constructor; values of blocks by induction |
| C89 | `Requests.v` (types of the arguments, what a client writes, what the derived `Deserialize` reads) and `PropertiesRequests.v`: the reader is sound and complete for a specification by names, field by field; what a client writes is well typed and says what it means; the ranges of `wf_call` follow from the reader |
| C90 | `Endpoint.v` (reading the argument, running the function, writing the answer) and `PropertiesBytes.v`: the specification of what a message asks for is that of C89; induction over the course; the receipt joins C81, C88 and C89 |
| C91 | `PropertiesAudit.v`: a downloaded log is defined by bytes and names only; by C88 and C90 it is the log that C51 speaks about |
| C92 | `PropertiesResend.v`: joins C07, C08, C81, C88 and C90; the message may have any bytes that ask for the call by name; `C92_late_resend` covers first answers that came after an outgoing call |

## 3. Trusted base

* The kernel of Coq 8.16.1, including its virtual machine (`vm_compute` is used
  in examples and in `_refuted` witnesses, never in a universally quantified
  theorem other than for closed arithmetic on constants).
* `Print Assumptions` follows every theorem named in `MANIFEST.json`.  Each
  answers "Closed under the global context": no theorem depends on any axiom.
* Loading std++ loads the standard library's `ssreflect` files, which contain the
  module type `Under_rel`; a whole-environment scan therefore lists
  `Coq.ssr.ssrunder.Under_rel.{Under_rel, Under_rel_from_rel, Under_relE, Over_rel,
  over_rel, over_rel_done, under_rel_done}`.  No theorem uses them.
* No axioms, no `Admitted`, no functors or module types, no plugins of our own.
* That the model is what the code does.  Every definition cites the lines it was
  written from.  The following facts about code outside `/repo` are trusted:
  * `icrc_ledger_types::Account`: equality and `effective_subaccount` identify no
    subaccount with 32 zero bytes; `Principal` holds at most 29 bytes, its `Ord`
    is a total order in which the empty principal is least (`prank`; stated as the
    hypothesis `principals_ordered` where it matters).
  * `icrc_ledger_types::Value::hash` is the representation-independent hash of
    ICRC-3 (checked against the test vectors of the standard in `PropertiesHash.v`),
    except that the bytes hashed for an `Int` are left open: the standard says signed
    LEB128, the project's own test of block hashes passes only if an integer from 0 on
    is written like the natural number it equals, and the crate's source is not here.
    What is used of it is that such an integer can be read off its bytes (part of
    `sha_ok`; true of both forms).  Only C70 needs the second form, as a hypothesis.
    And `ic_certified_map::RbTree` with the two keys inserted in the order of
    storage.rs:789-790 has the index as its root and the hash as its left child.
  * `ic_certified_map::HashTree` is serialised as in the IC specification (an array that
    starts with the kind of node; labels, leaves and hashes as byte strings).
  * `minicbor` writes the withdraw memo as `0x81`, a byte-string head, the bytes.
  * `ciborium`: integers below 2^64 are CBOR integers, larger `u128`s are tag 2 with
    minimal bytes; the byte format is RFC 8949 in definite lengths.  Reading
    accepts what `Cbor.v` says; indefinite lengths are rejected in the model, its
    recursion limit of 256 and the check of UTF-8 are not modelled (no value the
    ledger writes comes near them).
  * `Principal::to_text` is the textual form of the IC specification (checked in
    `PrincipalText.v` against the identifier in `canister_ids.json` and two others).
  * `num_bigint::BigUint::to_bytes_be` of 0 is one zero byte.
  * `leb128` writes and reads unsigned LEB128.
  * `HttpRequest::path` returns what comes before the first `?` of the URL; `as f64`
    rounds to nearest, ties to even.
  * serde's derived struct visitors ignore unknown fields, reject repeated ones and
    map an absent or null optional field to `None`; so do the candid arguments (`Requests.v`).
  * `candid` writes values by the rules of the Candid specification (`Candid.v`), with the
    types of `cycles-ledger.did`; in which order it lays out its table of types is not
    modelled (the reader takes any order).
  * `candid::Principal` is written to CBOR as a byte string, and
    `icrc_ledger_types::Account` by its derived `Serialize` with the subaccount as an
    array of 32 integers (used only for the stored configuration, C57).
  * `ic_cdk`: a call that cannot be enqueued (`InsufficientLiquidCycleBalance`,
    `CallPerformFailed`) fails in the same message; every other failure comes as a
    call-back in a later message.
  * Release profile: `+` on `u64`/`u128` wraps, as `Cargo.toml` sets no
    `overflow-checks`.
  * The Internet Computer: one message at a time, a trap rolls back its message
    only, time never decreases, replies are delivered at most once, certified data
    survives upgrades, cycles attached to a failed call come back (at most what was
    sent).
  * `StableBTreeMap` is a finite map ordered by key, `StableLog` returns what was
    stored, and neither runs out of space.

## 4. What is modelled and what is not

| source | modelled | not modelled |
|---|---|---|
| `cycles-ledger/src/config.rs` | constants, `Config`, its stored form | |
| `cycles-ledger/src/endpoints.rs` | argument, reply and error types, the bytes of the answers (C86) and of the arguments (C89) | settings of a new canister other than its controllers; an optional argument of a wrong type |
| `cycles-ledger/src/compact_account.rs` | all | |
| `cycles-ledger/src/memo.rs` | all | |
| `cycles-ledger/src/lib.rs` | value conversions, depth limit, error conversions | texts of errors |
| `cycles-ledger/src/storage.rs` | `State` and all its methods, `Cache`, `Block`, `Transaction`, `FlattenedTransaction`, `phash`, mint, deposit, transfer, approve, penalize (called by no endpoint), withdraw, create_canister, reimburse, reimburse_approval, allowances, pruning, `get_blocks`, `get_allowances`, hash tree and certified data | SHA-256 (an arbitrary function; an instance is given), the layout of the maps inside their regions of stable memory (the regions themselves, the bytes of the log and of the configuration and the reading of all of them are), P1 log messages, error texts |
| `cycles-ledger/src/main.rs` | init, post_upgrade, all update calls, the queries about balances, supply, fee, allowances, blocks, tip certificate, index, metadata with name, symbol and logo, supported standards, block types, `http_request`: which page a URL gets, the gauges of the metrics page and their rounding to doubles | the text of the pages, the gauges for the size of stable memory |
| `cycles-ledger/src/logs.rs` | that a P0 message is logged and which | rendering |
| IC | messages, traps, call-backs, upgrades, clock, cycle balance, failing outgoing calls | when exactly instruction and memory limits are hit (they may be hit in any message), what happens to a message that is too large (C87 bounds the size of the answers), cost of execution other than as arbitrary consumption (`EvConsume`) |
| `depositor` | `init`, `deposit`, loss of the heap on upgrade, messages to and from the ledger | candid; that the management canister rejects `deposit` is assumed |
| `fake-cmc` (a test double) | `create_canister`, `fail_next_create_canister_with`, messages to and from the ledger (C68 only; everywhere else the answers of the cycles minting canister are arbitrary) | candid, the two queries, its upgrade |

## 5. Findings

Each is a theorem about the model (`_refuted`), or is visible in the statement named.

1. *C19* `icrc2_allowance` reports an approval at the very nanosecond of its expiry,
   when it can no longer be spent; `icrc103_get_allowances` does not.  (`<` against `<=`.)
   At or after the expiry an unpruned approval makes `icrc2_transfer_from` answer
   `GenericError` 100003 rather than `InsufficientAllowance`.
2. *C25* The call-back of a failed `withdraw_from`/`create_canister_from` can trap, in
   which case the burn stays and nothing is refunded: when the approval that is
   current at that time expires at exactly that nanosecond and more than 200 expired
   approvals are still stored (otherwise the refund's own pruning removes it first).  Also when the cycles
   minting canister reports more than 2^128 cycles' worth of refunds in total.
3. *C26* An approval the owner has revoked comes back when an in-flight
   `withdraw_from` fails; a newer approval without expiry is replaced by one with the
   old expiry.
4. *C44* Crediting 0 (a transfer of 0 to a new account) leaves an entry of 0 in the
   balance table.
5. *C45* Deduplication distinguishes an absent subaccount from 32 zero bytes.  Also,
   `create_canister` calls differing only in `creation_args` are duplicates.
6. *C46* A withdrawal that failed and was refunded is answered `Duplicate` when retried.
7. *C29* `icrc3_get_blocks` returns nothing for a range whose length is 2^64 or more,
   or when `start + min(limit, length)` wraps.
8. *C21* A deposit of exactly the fee is rejected, and every other deposit is charged the
   fee, while `INTERFACE_SPECIFICATION.md` says that at least 100M cycles must be attached
   and that there is no fee.
9. *C27* The refund reported by the cycles minting canister is trusted; one that is too
   high creates unbacked cycles.  A reply that cannot be decoded counts as a full refund,
   and so does a rejection, although the other canister may have kept cycles it accepted
   before it trapped (C68: the project's own stand-in does, and with a simulated refund
   larger than the cycles attached it keeps all of them and still reports the refund).
10. *C33* Deposits and initial balances may name the management canister's account.
11. *C20* Approving 0 without an approval charges the fee, records a block, and logs a
    message at priority P0.  *C41* Initial mint blocks record a fee nobody pays.
12. *C43* `1xfer` is not among the supported block types.
13. *C13* A self-transfer is refused if balance + amount exceeds 2^128 - 1.
14. *C16* An approval without expiry at time 2^64 - 1 is answered `Expired`.
15. *C39* When an outgoing call fails at once, a `_from` call can trap only at time
    2^64 - 1 or on a hash collision.
16. *C58* An upgrade of the depositor canister puts the default configuration back, which
    names the management canister: from then on every deposit through it fails (its
    cycles come back).
17. *C70* `ciborium_to_generic_value` turns numbers below 2^64 into `Int`, while
    `Block::to_value` writes `Nat`.  Blocks are hashed in the second form, transactions
    (for deduplication) in the first.  If the crate hashes `Int` as the standard says, the
    two hashes of the same transaction differ.  No other claim depends on it.

## 6. Testing the theorems against wrong programs

`seeded/LOG.jsonl` lists edits of the model that a realistic bug would make, the
claim each breaks and the theorems that failed.  Method: in a scratch copy the
edit is applied and everything is rebuilt; every lemma whose proof breaks is
replaced by `Admitted` there and the build goes on, so that `Print Assumptions`
tells for each property theorem whether it still holds without a broken lemma.
A theorem whose claim the edit makes false must be among those that do not.
To save time the statements are first compiled without their proofs (`-vos`), each
proof that depends on the edited definition is replayed once, and a property theorem
counts as failed if it uses, directly or not, a lemma whose proof no longer goes
through.  The list `theorems_failed` is therefore long where a lemma that many
proofs use spells out the edited function: it says which proofs noticed the edit, not
that every statement listed is false of the edited program.  `properties` names the
claims that are.

Besides the edits chosen by hand, small edits (a comparison, a constant, a swapped or
dropped argument) were generated automatically from the definitions of the model, 913
in all.  75 of them, in random order, were tried before the time for it ran out: 17
had no type, the tool failed on 2, 53 broke a proof and 3 broke none.  Two of the three
change the signed LEB128 numbers of `ValueHash.v`; tried again on the final model they
break the proofs that these numbers can be read back (`CandidProofs.v`, used by C86).
The third let `generic_to_cbor` convert integers from `2^64` on; `C36_generic_supported`
was added because of it.
