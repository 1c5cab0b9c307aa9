(** Specification of C95 (splitting a withdrawal). *)
From Coq Require Import ZArith List.
From Verif Require Import Base PoolModel.
Import ListNotations.
Local Open Scope Z_scope.

(** [redeem rx ry ps pcs fee X Y]: starting from a pool with reserves [rx], [ry] and pool coin supply
    [ps], the amounts [pcs] are redeemed one after another, each against the reserves and the supply the
    ones before it left behind; together they are paid [X] and [Y].
    (x/dex/keeper/pool.go:504-524 applies amm.Withdraw this way: the coins are paid out of the reserve
    and the pool coins burnt before the next request is looked at.  A request that would be paid nothing
    is refused there and gets its pool coins back: it is simply not in the list.) *)
Inductive redeem (fee : Z) : Z -> Z -> Z -> list Z -> Z -> Z -> Prop :=
| redeem_none : forall rx ry ps, redeem fee rx ry ps [] 0 0
| redeem_next : forall rx ry ps pc pcs x y X Y,
    0 <= pc <= ps -> 0 < ps ->
    withdraw rx ry ps pc fee = Ok (x, y) ->
    redeem fee (rx - x) (ry - y) (ps - pc) pcs X Y ->
    redeem fee rx ry ps (pc :: pcs) (x + X) (y + Y).

Definition total (pcs : list Z) : Z := fold_right Z.add 0 pcs.
