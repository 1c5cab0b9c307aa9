(** When a pool has run empty: no pool coins are left, or nothing is left to trade with: a basic pool lacks one
    of the two coins, a ranged pool lacks both. *)
From Verif Require Import Base Dec KeeperModel PoolLedgerSpec.

Definition run_empty (s : state) (p : kpool) (pr : pair) : Prop :=
  supply (st_bank s) (PoolCoin (pl_id p)) = 0 \/
  match pl_kind p with
  | PBasic => reserve s (pl_id p) (pr_quote pr) = 0 \/ reserve s (pl_id p) (pr_base pr) = 0
  | PRanged _ _ => reserve s (pl_id p) (pr_quote pr) = 0 /\ reserve s (pl_id p) (pr_base pr) = 0
  end.
