(** * The HTTP interface

    Model of [http_request] in cycles-ledger/src/main.rs. *)
From Coq Require Import Ascii.
From Verif Require Import Base Types State Ledger Canister.

Local Open Scope string_scope.
Local Open Scope list_scope.
Local Open Scope N_scope.

(** The path of a URL: what comes before the first question mark.
    [HttpRequest::path] of the crate ic-http-types, used in main.rs:487 and 504. *)
Fixpoint url_path (url : string) : string :=
  match url with
  | EmptyString => EmptyString
  | String c rest => if Ascii.eqb c "?"%char then EmptyString else String c (url_path rest)
  end.

(** The conversion [as f64] of an unsigned integer (main.rs:548 and following): the
    53 leading bits are kept and the rest is rounded, to the even significand if
    it is exactly one half.  The result is always a whole number. *)
Definition to_f64 (n : N) : N :=
  if n <? 2 ^ 53 then n
  else
    let e := N.log2 n - 52 in
    let q := n / 2 ^ e in
    let r := n mod 2 ^ e in
    let half := 2 ^ (e - 1) in
    if (r <? half) || ((r =? half) && N.even q) then q * 2 ^ e else (q + 1) * 2 ^ e.

(** main.rs:532-584 [encode_state_metrics] and 586-609 [encode_metrics]: names and
    values in the order of the page. Left out are the size of stable memory
    (two gauges), which the model does not have, and the help texts. *)
Definition metrics_page (w : world) : list (string * N) :=
  let m := state_metrics (w_led w) in
  [ ("cycles_ledger_cycle_balance", to_f64 (w_cycles w));
    ("cycle_balance", to_f64 (w_cycles w));
    ("cycles_ledger_number_of_blocks", to_f64 (m_blocks m));
    ("cycles_ledger_number_of_balances", to_f64 (m_balances m));
    ("cycles_ledger_number_of_transaction_hashes", to_f64 (m_tx_hashes m));
    ("cycles_ledger_number_of_transaction_timestamps", to_f64 (m_tx_timestamps m));
    ("cycles_ledger_number_of_approvals", to_f64 (m_approvals m));
    ("cycles_ledger_number_of_approval_expiration_entries", to_f64 (m_expirations m));
    ("cycles_ledger_total_supply", to_f64 (m_total_supply m)) ].

(** main.rs:485-530 [http_request].  Of the page of log messages only the number of
    important ones (P0) is kept: the buffer holds the last 1000 (logs.rs:6). *)
Inductive page := PageMetrics (gauges : list (string * N)) | PageLogs (important : N) | PageNotFound.
Definition http_request (w : world) (url : string) : page :=
  if String.eqb (url_path url) "/metrics" then PageMetrics (metrics_page w)
  else if String.eqb (url_path url) "/logs" then PageLogs (N.min 1000 (N.of_nat (length (p0 (w_led w)))))
  else PageNotFound.
