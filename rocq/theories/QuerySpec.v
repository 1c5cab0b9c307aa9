(** What a paginated listing is expected to give. *)
From Verif Require Import Base KeeperModel QueryModel.

(** Following the next keys from the first page to the last. *)
Inductive walk {A : Type} (q : page_req -> option (list A * page_res)) (limit : Z) (count : bool) : option key -> list (list A) -> Prop :=
| walk_last k items total : q (mkPage k 0 limit count) = Some (items, mkRes None total) -> walk q limit count k [items]
| walk_more k items k' total rest : q (mkPage k 0 limit count) = Some (items, mkRes (Some k') total) ->
    walk q limit count (Some k') rest -> walk q limit count k (items :: rest).

(** The page size in force: 100 when the request does not say. *)
Definition page_size (limit : Z) : Z := if limit =? 0 then 100 else limit.

(** [q] lists [all]: following the next keys ends, gives exactly the items of [all] in order, each
    once, never more than a page at a time; and asking by offset gives the corresponding slice, the
    number of items when asked to count, and a next key exactly when items remain. *)
Definition lists {A : Type} (q : page_req -> option (list A * page_res)) (all : list A) : Prop :=
  (forall limit count, 0 <= limit -> exists pages, walk q limit count None pages /\ concat pages = all /\
     Forall (fun p => Z.of_nat (length p) <= page_size limit) pages) /\
  (forall offset limit count, 0 <= offset -> 0 <= limit -> exists res,
     q (mkPage None offset limit count) = Some (firstn (Z.to_nat (page_size limit)) (skipn (Z.to_nat offset) all), res) /\
     (count = true \/ limit = 0 -> rs_total res = Z.of_nat (length all)) /\
     (rs_next res = None <-> Z.of_nat (length all) <= offset + page_size limit)).

(** Histories together with the indexes that serve queries only. *)
From Verif Require Import KeeperSpec.
Inductive qreach (rank : denom -> Z) (Q : params -> Prop) : config -> qidx -> Prop :=
| QReach_genesis s : genesis Q s -> qreach rank Q (Between, s) no_idx
| QReach_begin s s' x : qreach rank Q (Between, s) x -> step Q (Between, s) (InBlock, s') -> qreach rank Q (InBlock, s') x
| QReach_msg s m s' x : qreach rank Q (InBlock, s) x -> deliver s m = Some s' -> (forall p, m = MUpdateParams p -> Q p) ->
    qreach rank Q (InBlock, s') (index_msg rank s m x)
| QReach_end s s' x : qreach rank Q (InBlock, s) x -> step Q (InBlock, s) (Between, s') -> qreach rank Q (Between, s') x.

(** The pair trades denominations [a] and [b], in either order. *)
Definition trades (p : pair) (a b : denom) : Prop := (pr_base p = a /\ pr_quote p = b) \/ (pr_base p = b /\ pr_quote p = a).
