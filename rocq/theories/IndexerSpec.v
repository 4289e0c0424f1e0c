(** * What an indexer computes from the values of [icrc3_get_blocks]

    An independent reading of the ICRC-3 block schema: everything is read off
    the generic values by field names.  Neither the ledger's state nor its block
    type is used. *)
From Verif Require Import Base Types Spec.

Local Open Scope string_scope.
Local Open Scope list_scope.
Local Open Scope N_scope.

(** ** Reading fields *)
Definition num (k : string) (v : value) : option N :=
  match field k v with Some (VNat n) => Some n | _ => None end.
Definition txt (k : string) (v : value) : option string :=
  match field k v with Some (VText s) => Some s | _ => None end.
(** A big-endian number *)
Definition be_number (l : list byte) : N := fold_left (fun acc b => acc * 256 + Byte.to_N b) l 0.
(** An account: the owner, and the subaccount unless it is the default one. *)
Definition read_account (v : value) : option akey :=
  match v with
  | VArray [VBlob o] => Some (o, 0)
  | VArray [VBlob o; VBlob s] => Some (o, be_number s)
  | _ => None
  end.
Definition acc (k : string) (v : value) : option akey :=
  match field k v with Some a => read_account a | None => None end.
Definition tx_of (v : value) : value := default (VMap []) (field "tx" v).
Definition op_of (v : value) : string := default "" (txt "op" (tx_of v)).
Definition is_op (name : string) (v : value) : bool := String.eqb (op_of v) name.
Definition amt_of (v : value) : N := default 0 (num "amt" (tx_of v)).
(** The fee: of the block, else of its transaction *)
Definition v_fee (v : value) : N :=
  match num "fee" v with Some f => f | None => default 0 (num "fee" (tx_of v)) end.

(** ** Balances and supply *)
Definition v_given (v : value) (k : akey) : N :=
  if (is_op "mint" v) || (is_op "xfer" v) then
    if decide (acc "to" (tx_of v) = Some k) then amt_of v else 0
  else 0.
Definition v_taken (v : value) (k : akey) : N :=
  if (is_op "xfer" v) || (is_op "burn" v) then
    if decide (acc "from" (tx_of v) = Some k) then amt_of v + v_fee v else 0
  else if is_op "approve" v then
    if decide (acc "from" (tx_of v) = Some k) then v_fee v else 0
  else 0.
Definition v_balance (vs : list value) (k : akey) : Z :=
  foldr (fun v z => Z.of_N (v_given v k) - Z.of_N (v_taken v k) + z)%Z 0%Z vs.

(** Mints add their amount; all others burn their fee, burns their amount too. *)
Definition v_minted (v : value) : N := if is_op "mint" v then amt_of v else 0.
Definition v_burned (v : value) : N :=
  if is_op "mint" v then 0
  else if is_op "burn" v then amt_of v + v_fee v
  else v_fee v.
Definition v_supply (vs : list value) : Z :=
  foldr (fun v z => Z.of_N (v_minted v) - Z.of_N (v_burned v) + z)%Z 0%Z vs.

(** ** Allowances *)
(** How a block changes the allowance of spender [x] from [f]. *)
Definition v_allowance_step (f x : akey) (cur : option (N * option N)) (v : value)
  : option (N * option N) :=
  if decide (acc "from" (tx_of v) = Some f /\ acc "spender" (tx_of v) = Some x) then
    if is_op "approve" v then
      if amt_of v =? 0 then None else Some (amt_of v, num "expires_at" (tx_of v))
    else if decide (f = x) then cur
    else if (is_op "xfer" v) || (is_op "burn" v) then
      match cur with
      | Some (a, e) => if a - (amt_of v + v_fee v) =? 0 then None else Some (a - (amt_of v + v_fee v), e)
      | None => None
      end
    else cur
  else cur.
Definition v_allowance (vs : list value) (f x : akey) (now : N) : N * option N :=
  match foldl (v_allowance_step f x) None vs with
  | Some (a, e) => if decide (unexpired now e) then (a, e) else (0, None)
  | None => (0, None)
  end.
