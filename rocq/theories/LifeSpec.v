(** The record of an order over its whole life. *)
From Verif Require Import Base Dec OrderModel MatchModel MatchSpec MatchProofs PoolModel KeeperModel.

(** [p] is no worse than the limit price of [o]. *)
Definition within_limit (o : korder) (p : dec) : Prop := match ko_dir o with Buy => p <= ko_price o | Sell => ko_price o <= p end.
(** What a fill of amount [fst f] at price [snd f] costs the owner, and what it brings: buyers pay the value
    rounded up and get the amount, sellers pay the amount and get the value rounded down. *)
Definition fill_cost (d : dir) (f : Z * dec) : Z := match d with Buy => ceil_value (snd f) (fst f) | Sell => fst f end.
Definition fill_gain (d : dir) (f : Z * dec) : Z := match d with Buy => fst f | Sell => floor_value (snd f) (fst f) end.
(** The order's record is what the fills [fs] explain, all of them within its limit. *)
Definition explained_by (o : korder) (fs : list (Z * dec)) : Prop :=
  Forall (fun f => 0 < fst f /\ 0 < snd f /\ within_limit o (snd f)) fs /\
  ko_open o = ko_amt o - sumZ (map fst fs) /\
  ko_remaining o = ko_offer o - sumZ (map (fill_cost (ko_dir o)) fs) /\
  ko_received o = sumZ (map (fill_gain (ko_dir o)) fs).

(** Nothing of [o] was filled between [o] and [o']. *)
Definition no_fill (o o' : korder) : Prop := ko_open o' = ko_open o /\ ko_received o' = ko_received o /\ ko_remaining o' = ko_remaining o.
(** The orders [h] became [h2] by fills at prices [ok] only; some order was filled at [mp]. *)
Definition fills_at (h h2 : list order) (ok : dec -> Prop) : Prop :=
  length h2 = length h /\ forall k, (k < length h)%nat -> exists fs, filled_by (get h k) fs (get h2 k) /\ Forall (fun f => ok (snd f)) fs.
Definition traded_at (h h2 : list order) (mp : dec) : Prop :=
  exists k fs, (k < length h)%nat /\ filled_by (get h k) fs (get h2 k) /\ In mp (map snd fs).
