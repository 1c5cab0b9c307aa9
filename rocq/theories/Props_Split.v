(** C95: splitting a withdrawal into several. *)
From Coq Require Import ZArith List Lia.
From Verif Require Import Base Dec PoolModel PoolProofs SplitSpec SplitProofs.
Import ListNotations.
Local Open Scope Z_scope.

(** C95, proved part.  Any number of redemptions one after another, of any sizes and by anybody:
    - as long as they do not exceed the supply they can be carried out (no crash in the arithmetic);
    - together they are paid at most the exact pro rata share of what they redeemed, in both coins;
    - so what one remaining pool coin is worth never falls;
    - without a fee, cutting a redemption into pieces gains at most one coin and 10^-18 of the reserve
      over redeeming the same amount at once.
    Missing: with a fee, cutting a redemption into pieces does gain (refuted below). *)
Theorem C95_split_withdrawals_partial : forall fee rx ry ps pcs, 0 <= fee <= P18 -> 0 <= rx -> 0 <= ry -> 0 < ps ->
  (Forall (fun pc => 0 < pc) pcs -> total pcs <= ps -> exists X Y, redeem fee rx ry ps pcs X Y) /\
  (forall X Y, redeem fee rx ry ps pcs X Y ->
     0 <= X <= rx /\ 0 <= Y <= ry /\
     X * ps <= rx * total pcs /\ Y * ps <= ry * total pcs /\
     rx * (ps - total pcs) <= (rx - X) * ps /\ ry * (ps - total pcs) <= (ry - Y) * ps /\
     (fee = 0 -> rx < 2 ^ 255 -> ry < 2 ^ 255 -> forall x y, withdraw rx ry ps (total pcs) 0 = Ok (x, y) ->
        P18 * (X - x - 1) <= rx /\ P18 * (Y - y - 1) <= ry)).
Proof.
  intros fee rx ry ps pcs Hf Hrx Hry Hps. split.
  - intros F T. apply redeem_total; auto.
  - intros X Y R. destruct (redeem_facts fee rx ry ps pcs X Y Hf R) as (T & HX & HY & SX & SY & _); try lia.
    split; [exact HX|]. split; [exact HY|]. split; [exact SX|]. split; [exact SY|]. split; [nia|]. split; [nia|].
    intros -> Bx By x y E.
    destruct (redeem_no_fee rx ry ps pcs X Y x y (conj Hrx Bx) (conj Hry By) Hps R E). split; lia.
Qed.
Print Assumptions C95_split_withdrawals_partial.

(** C95, full claim refuted: a holder of 900 of 1000 pool coins of a pool with reserves of a million
    each and a withdraw fee of ten percent gets 810000 of each at once, but 843136 in two equal parts:
    the fee of the first part stays in the pool, and most of it belongs to the holder again. *)
Theorem C95_split_withdrawals_refuted : exists fee rx ry ps pcs X Y x y,
  0 <= fee <= P18 /\ 0 <= rx /\ 0 <= ry /\ 0 < ps /\
  redeem fee rx ry ps pcs X Y /\ withdraw rx ry ps (total pcs) fee = Ok (x, y) /\ X > x + 33000 /\ Y > y + 33000.
Proof.
  exists 100000000000000000, 1000000, 1000000, 1000, [450; 450], (405000 + (438136 + 0)), (405000 + (438136 + 0)), 810000, 810000.
  split; [vm_compute; split; discriminate|]. split; [lia|]. split; [lia|]. split; [lia|]. split.
  - apply redeem_next; [lia|lia|vm_compute; reflexivity|].
    apply redeem_next; [lia|lia|vm_compute; reflexivity|]. apply redeem_none.
  - split; [vm_compute; reflexivity|lia].
Qed.
Print Assumptions C95_split_withdrawals_refuted.

(** The hypotheses are met: three redemptions that leave some of the pool, and three that empty it. *)
Example C95_example : redeem 3000000000000000 1000 2001 100 [25; 30; 5] (249 + (299 + (50 + 0))) (498 + (599 + (100 + 0))).
Proof. repeat (apply redeem_next; [lia|lia|vm_compute; reflexivity|]). apply redeem_none. Qed.
Example C95_example_all : redeem 0 1000 2001 100 [25; 30; 45] (250 + (300 + (450 + 0))) (500 + (600 + (901 + 0))).
Proof. repeat (apply redeem_next; [lia|lia|vm_compute; reflexivity|]). apply redeem_none. Qed.
