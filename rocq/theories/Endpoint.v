(** * The ledger as a canister that receives and sends bytes

    What the functions generated by [#[update]] and [#[query]] do in
    [/repo/cycles-ledger/src/main.rs]: they read the argument, run the function below
    and write its answer.  A message whose argument is not understood traps before any
    code of the ledger runs.

    Not modelled: that a query can also be sent as an update call (it changes nothing). *)
From Verif Require Import Base Types Codec ValueHash State Ledger Canister Candid Wire Requests.
Local Open Scope N_scope.

Section WithEnv.
Context `{Env}.

(** An ingress or inter-canister message: when it comes, who sent it, the name of the
    method, the cycles attached, the argument; [d_sync] as in [EvCall] (Canister.v). *)
Record delivery := Dlv {
  d_now : N; d_caller : principal; d_method : method; d_cycles : N; d_bytes : list byte;
  d_sync : option sync_error }.

(** main.rs:199-288, 312-337, 355-391, 407-454: the update calls *)
Definition receive (w : world) (d : delivery) : world * option response :=
  match read_request (d_method d) (d_cycles d) (d_bytes d) with
  | Some (ReqCall c) =>
      let (w', r) := step w (EvCall (d_now d) (d_caller d) c (d_sync d)) in (w', Some r)
  | _ => (w, None)
  end.
(** The bytes that go back, at once or when an outgoing call has ended *)
Definition sent_back (m : method) (r : response) (txt : list byte) : option (list byte) :=
  match r with RespReply x => Some (answer_bytes m (AnsReply x txt)) | _ => None end.

(** main.rs:194-197, 290-293, 393-405, 456-476: the queries with arguments *)
Definition query (w : world) (now : N) (caller : principal) (m : method) (b : list byte)
  : option (list byte) :=
  match read_request m 0 b with
  | Some (ReqBalance a) => Some (answer_bytes m (AnsNat (icrc1_balance_of (w_led w) a)))
  | Some (ReqAllowance a s) =>
      Some (answer_bytes m (AnsAllowance (icrc2_allowance (w_led w) now a s)))
  | Some (ReqBlocks l) => Some (answer_bytes m (AnsBlocks (icrc3_get_blocks (w_led w) l)))
  | Some (ReqAllowances from prev take) =>
      Some (answer_bytes m (AnsAllowances (icrc103_get_allowances (w_led w) now caller from prev take)))
  | Some (ReqCall _) | None => None
  end.
End WithEnv.
