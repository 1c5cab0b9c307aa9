(** Orders that reach the book in a different sequence (C94): what is compared. *)
From Verif Require Import Base Dec OrderModel MatchModel.

(** OrderBook.AddOrder called for the orders [ps], in that sequence, on an empty book (amm/orderbook.go:17-38). *)
Definition book_of (h : heap) (ps : list nat) : book := fold_left (add_order h) ps (mkBook [] []).

(** The same order under another name: all terms and all fills agree, the owner tag (user order id or pool id)
    may differ. *)
Definition twin (a b : order) : Prop :=
  o_dir a = o_dir b /\ o_price a = o_price b /\ o_amt a = o_amt b /\ o_offer a = o_offer b /\ o_batch a = o_batch b /\
  o_open a = o_open b /\ o_paid a = o_paid b /\ o_recv a = o_recv b.
Definition twins (h h2 : heap) : Prop := length h = length h2 /\ forall p, twin (get h p) (get h2 p).

(** Two orders that stand side by side: same direction, price and batch. *)
Definition rivals (a b : order) : Prop := o_dir a = o_dir b /\ o_price a = o_price b /\ o_batch a = o_batch b.
