(** * C93: every accepted message is announced, and the announcement is true *)
From Verif Require Import Base Dec TickModel OrderModel MatchModel PoolModel KeeperModel KeeperSpec KeeperExample AnnounceModel AnnounceSpec AnnounceProofs.

(** The announcing handlers accept and do exactly what the handlers do; a refused message announces nothing. *)
Theorem C93_same_effect : forall s m, deliver s m = match deliver_a s m with Some r => Some (fst r) | None => None end.
Proof. intros s m. rewrite <- deliver_forget. destruct (deliver_a s m) as [[s' l]|]; reflexivity. Qed.
Print Assumptions C93_same_effect.

(** An accepted message leads to exactly one announcement, which names the message's data, and what it says
    about the new pair, pool, request or order, the coins moved and the orders cancelled is true; except
    that of the coins named for a ranged pool the pool may have received less. *)
Theorem C93_told_partial : forall Q s m s' l, reach (sane Q) (InBlock, s) -> deliver_a s m = Some (s', l) ->
  (quiet m /\ l = []) \/ exists a, l = [a] /\ about m a /\ true_ann at_most_told s s' a.
Proof. exact all_told. Qed.
Print Assumptions C93_told_partial.

(** For every message but the creation of a ranged pool nothing is missing. *)
Theorem C93_told_exactly : forall Q s m s' l, reach (sane Q) (InBlock, s) -> deliver_a s m = Some (s', l) -> (forall u i cs a b c, m <> MCreateRangedPool u i cs a b c) ->
  (quiet m /\ l = []) \/ exists a, l = [a] /\ about m a /\ true_ann as_told s s' a.
Proof.
  intros Q s m s' l R H N. destruct (all_told Q s m s' l R H) as [X|(a & E & A & T)]; [left; exact X|]. right. exists a. split; [exact E|]. split; [exact A|].
  destruct a; try exact T. destruct ranged; [|exact T]. exfalso. destruct m; cbn [about] in A; try contradiction A; [destruct A as (X & _); discriminate X|exact (N _ _ _ _ _ _ eq_refl)].
Qed.
Print Assumptions C93_told_exactly.

(** The full claim is refuted: the announcement of a ranged pool names the coins offered, not the coins
    taken (pool.go:275).  Here 90000000 are announced of the quote coin and 60584148 taken. *)
Definition offer_ranged : msg := MCreateRangedPool 2 1 [(Coin 1, 100000000); (Coin 2, 90000000)] (P18 * 4 / 10) (P18 * 6 / 10) half.
Definition overstated (s : state) (r : option (state * list ann)) : bool :=
  match r with
  | Some (s', [APool true _ _ cs _ res _ _]) => (bal (st_bank s') res (Coin 2) - bal (st_bank s) res (Coin 2) =? 60584148) && (amount_of cs (Coin 2) =? 90000000) && negb (addr_eqb (pm_fee_collector (st_params s)) res)
  | _ => false
  end.
Theorem C93_ranged_refuted : exists s s' a, reach (sane any_params) (InBlock, s) /\ deliver_a s offer_ranged = Some (s', [a]) /\ about offer_ranged a /\ ~ true_ann as_told s s' a.
Proof.
  assert (X : overstated (snd (after 1 trade1)) (deliver_a (snd (after 1 trade1)) offer_ranged) = true) by (vm_compute; reflexivity).
  assert (R : reach (sane any_params) (InBlock, snd (after 1 trade1))) by (apply after_in_block; reflexivity).
  revert X R. generalize (snd (after 1 trade1)). intros s X R. exists s. destruct (deliver_a s offer_ranged) as [[s' l]|] eqn:E; [|discriminate X].
  destruct (all_told _ _ _ _ _ R E) as [(F & _)|(a & -> & A & _)]; [destruct F|]. exists s', a. split; [exact R|]. split; [reflexivity|]. split; [exact A|]. intros T.
  destruct a; try discriminate X. cbn [overstated] in X. destruct ranged; [|discriminate X]. rewrite !andb_true_iff, !Z.eqb_eq in X. destruct X as ((X1 & X2) & X3). destruct T as (_ & _ & _ & _ & _ & T).
  assert (N : pm_fee_collector (st_params s) <> reserve) by (intros Z; rewrite Z in X3; destruct (KeeperLib.addr_eqb_spec reserve reserve); [discriminate X3|congruence]). specialize (T N (Coin 2)). rewrite X2 in T. lia.
Qed.
Print Assumptions C93_ranged_refuted.

(** A market with two open orders: announcements of a pair, a pool, a buy order placed at the tick below the
    price asked with the rest of the offer named as refund; later of one cancelled order, and of all. *)
Example C93_example : reach (sane any_params) (InBlock, snd (after 1 trade1)) /\ reach (sane any_params) (InBlock, snd (after 1 trade3)) /\
  map (fun m => match deliver_a (snd (after 1 trade1)) m with Some (_, l) => l | None => [] end)
    [MCreatePair 1 (Coin 2) (Coin 1); MCreatePool 2 1 [(Coin 1, 100000000); (Coin 2, 90000000)]; MLimitOrder 2 1 Buy (Coin 2) 60000 (Coin 1) (half + 1) 100000 3600; MCancelOrder 1 1 1] =
    [[APair 1 (Coin 2) (Coin 1) 2 (PairEscrow 2)]; [APool false 2 1 [(Coin 1, 100000000); (Coin 2, 90000000)] 1 (PoolReserve 1) (PoolCoin 1) 1000000000000];
     [AOrder TLimit 2 1 Buy (Coin 2) 50000 (Coin 1) half 100000 3 1 3605 (Coin 2) 10000]; []] /\
  map (fun m => match deliver_a (snd (after 1 trade3)) m with Some (_, l) => l | None => [] end) [MCancelOrder 1 1 3; MCancelAllOrders 1 []; MCancelAllOrders 2 [1]] = [[ACancel 1 1 3]; [ACancelAll 1 [] [3; 4]]; [ACancelAll 2 [1] [2]]].
Proof. split; [apply after_in_block; reflexivity|]. split; [apply after_in_block; reflexivity|]. vm_compute. split; reflexivity. Qed.
