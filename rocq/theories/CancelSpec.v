(** What cancelling all orders releases from the escrow of a pair. *)
From Verif Require Import Base Dec OrderModel MatchModel PoolModel KeeperModel.

(** [o] is a live order of user [u] placed in an earlier batch of its pair, and its pair is named in [ids]
    (an empty list names all pairs). *)
Definition to_cancel (u : Z) (ids : list Z) (s : state) (o : korder) : bool :=
  addr_eqb (User u) (ko_owner o) &&
  match ko_status o with OCompleted | OCanceled | OExpired => false | _ => true end &&
  match ids with [] => true | _ => existsb (Z.eqb (ko_pair o)) ids end &&
  match get_pair s (ko_pair o) with Some pr => ko_batch o <? pr_batch pr | None => false end.
(** The remaining offer coins of these orders that the escrow of pair [i] holds in [d]. *)
Definition released (s : state) (u : Z) (ids : list Z) (i : Z) (d : denom) : Z :=
  sumZ (map (fun kv => let o := snd kv in if to_cancel u ids s o && (ko_pair o =? i) && denom_eqb d (ko_offer_denom o) then ko_remaining o else 0) (st_orders s)).
