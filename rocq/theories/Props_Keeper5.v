(** Properties C37, C58: expiry of orders, what users get in a batch.  See Props_Keeper.v for [reach (sane Q)]. *)
From Verif Require Import Base Dec OrderModel MatchModel MatchSpec PoolModel KeeperModel KeeperLib KeeperSpec KeeperSpec2 LedgerSpec KeeperMicro KeeperBank KeeperSteps KeeperTrade KeeperInv KeeperHist KeeperBlock KeeperLedger KeeperExpire MatchProofs KeeperExample.

(** A batch runs at the end of block [s] and leads to [s']. *)
Definition batch_runs (Q : params -> Prop) (s s' : state) : Prop :=
  reach (sane Q) (InBlock, s) /\ st_height s mod pm_batch_size (st_params s) = 0 /\ exists iter, is_perm_iter iter /\ end_block iter s = Some s'.

(** ** C37: orders end at expiry. *)

(** After the batch no live order has reached its expiry, and none is too small to trade. *)
Theorem C37_none_left : forall Q s s' i j o, batch_runs Q s s' -> get_order s' i j = Some o -> live o = true ->
  st_time s' = st_time s /\ st_time s < ko_expire o /\ big_enough (ko_price o) (ko_open o).
Proof.
  intros Q s s' i j o (R & B & iter & Hi & E) G L. split; [exact (proj1 (batch_time Q iter Hi s s' R B E))|].
  pose proof (batch_no_expired Q iter Hi s s' R B E i j o G L) as N. unfold must_end in N.
  assert (D : big_enough (ko_price o) (ko_open o) \/ ~ big_enough (ko_price o) (ko_open o)).
  { unfold big_enough. destruct (Z_le_dec min_coin_amount (ko_open o)); [|right; intros [X _]; lia]. destruct (Z_le_dec (of_int min_coin_amount) (ko_price o * ko_open o)); [|right; intros [_ X]; lia].
    destruct (Z_lt_dec (ko_price o * ko_open o) (2 ^ 315)); [left; split; [assumption|split; assumption]|right; intros [_ X]; lia]. }
  destruct D as [D|D]; [|exfalso; apply N; right; exact D]. split; [|exact D]. destruct (Z_lt_dec (st_time s) (ko_expire o)); [assumption|]. exfalso. apply N. left. lia.
Qed.
Print Assumptions C37_none_left.

(** A live order that has reached its expiry ends in the batch (as completed if the batch filled it). *)
Theorem C37_expired_end : forall Q s s' i j o, batch_runs Q s s' -> get_order s i j = Some o -> live o = true -> ko_expire o <= st_time s ->
  exists o', get_order s' i j = Some o' /\ order_later o o' /\ (ko_status o' = OExpired \/ ko_status o' = OCompleted /\ ko_open o' = 0).
Proof.
  intros Q s s' i j o BR G L Ex. pose proof BR as (R & B & iter & Hi & E).
  destruct (batch_order Q iter Hi s s' R B E i j o G L) as (pr & sa & o1 & o' & _ & _ & T & _ & F & G' & A). exists o'. split; [exact G'|].
  assert (La : order_later o o').
  { destruct (l_orders _ _ (batch_later Q iter Hi s s' R E) _ _ _ G') as [(x & X & Y)|(X & _)]; [rewrite G in X; injection X as <-; exact Y|congruence]. }
  split; [exact La|]. unfold matching_fate in F. rewrite T in F.
  assert (St : live o1 = false -> ko_status o1 = OExpired \/ ko_status o1 = OCompleted /\ ko_open o1 = 0).
  { intros N. destruct F as [(_ & _ & ->)|(_ & hu & uo & _ & _ & _ & [->|(fs & m & _ & _ & ->)])].
    - left. reflexivity.
    - unfold live in N. cbn [ko_status ko_with_status] in N. exfalso. unfold tried in N. unfold live in L. destruct (ko_status o); cbn in N, L; congruence.
    - right. cbn [ko_status ko_open]. unfold live in N. cbn [ko_status] in N. destruct (Z.eqb_spec (ko_open o - (o_amt m - o_open m)) 0); [split; [reflexivity|assumption]|discriminate N]. }
  destruct A as [[-> X]|(_ & _ & ->)]; [|left; reflexivity]. apply St. destruct (live o1) eqn:L1; [|reflexivity]. exfalso. apply (X eq_refl). left.
  assert (Ee : ko_expire o1 = ko_expire o) by (destruct La as (_ & _ & _ & _ & _ & _ & _ & _ & _ & _ & _ & _ & Y & _); exact Y). lia.
Qed.
Print Assumptions C37_expired_end.

(** It gets a chance first: an order that has not been through a batch yet (and one that has not
    expired) is given to the matching engine of its pair, with its whole unfilled part. *)
Theorem C37_chance_first : forall Q s s' i j o, batch_runs Q s s' -> get_order s i j = Some o -> live o = true ->
  (ko_status o = ONotExecuted \/ st_time s < ko_expire o) ->
  exists pr iter sa hu uo, get_pair s i = Some pr /\ at_matching iter s pr sa /\ offered sa pr hu /\ In uo hu /\ stands_for uo o.
Proof.
  intros Q s s' i j o (R & B & iter & Hi & E) G L C. destruct (batch_order Q iter Hi s s' R B E i j o G L) as (pr & sa & o1 & o' & Gp & Am & T & _ & F & _).
  destruct F as [(Tr & X & _)|(_ & hu & uo & O & I & St & _)]; [|exists pr, iter, sa, hu, uo; auto 10].
  exfalso. destruct C as [C|C]; [unfold tried in Tr; rewrite C in Tr; discriminate Tr|rewrite T in X; lia].
Qed.
Print Assumptions C37_chance_first.

(** Only then: an order the batch ends as expired has reached its expiry or is too small to trade. *)
Theorem C37_only_then : forall Q s s' i j o o', batch_runs Q s s' -> get_order s i j = Some o -> live o = true -> get_order s' i j = Some o' -> ko_status o' = OExpired ->
  ko_expire o <= st_time s \/ ~ big_enough (ko_price o') (ko_open o').
Proof.
  intros Q s s' i j o o2 (R & B & iter & Hi & E) G L G2 S. destruct (batch_order Q iter Hi s s' R B E i j o G L) as (pr & sa & o1 & o' & Gp & Am & T & _ & F & G' & A).
  assert (o2 = o') as -> by congruence.
  destruct A as [[-> X]|(_ & [X|X] & ->)].
  - destruct F as [(_ & X1 & _)|(_ & hu & uo & _ & _ & _ & [->|(fs & m & _ & _ & ->)])].
    + left. lia.
    + exfalso. cbn [ko_status ko_with_status] in S. unfold tried in S. unfold live in L. destruct (ko_status o); cbn in S, L; congruence.
    + exfalso. cbn [ko_status] in S. destruct (_ =? 0); discriminate S.
  - left. destruct F as [(_ & _ & ->)|(_ & hu & uo & _ & _ & _ & [->|(fs & m & _ & _ & ->)])]; exact X.
  - right. exact X.
Qed.
Print Assumptions C37_only_then.

(** ** C58: what users get in a batch ([returned] is in LedgerSpec). *)

(** A user's balance grows exactly by what the batch makes the user's orders and requests return:
    received coins, refunds of ended orders, results of executed deposits and withdrawals; the
    dust collector also gets dust. *)
Theorem C58_paid_exactly : forall Q s s' u d, batch_runs Q s s' ->
  exists dust, 0 <= dust /\ bal (st_bank s') (User u) d - bal (st_bank s) (User u) d =
    returned s' (User u) d - returned s (User u) d + at_acc (User u) (pm_dust_collector (st_params s)) dust.
Proof.
  intros Q s s' u d (R & B & iter & Hi & E). destruct (pot_end_block (sane Q) iter s s' Hi (reach_okp Q _ R) (batch_sane Q) E u d) as (x & X0 & X1).
  exists x. split; [exact X0|]. unfold pot in X1. lia.
Qed.
Print Assumptions C58_paid_exactly.

(** The batch never takes coins from a user. *)
Theorem C58_never_takes : forall Q s s' u d, batch_runs Q s s' -> bal (st_bank s) (User u) d <= bal (st_bank s') (User u) d.
Proof.
  intros Q s s' u d (R & B & iter & Hi & E). pose proof (reach_okp Q _ R) as I. cbn [snd] in I. destruct (end_block_mics (sane Q) iter s s' Hi I (batch_sane Q) E) as (s1 & M1 & M2).
  pose proof (proj1 (okp_st _ STrade _) I) as It. pose proof (user_gains_mics _ _ _ u d M1 It (or_introl eq_refl)).
  pose proof (user_gains_mics _ _ _ u d M2 (proj1 (inv_ctl _ SReq _) (inv_mics _ _ _ M1 It)) (or_intror eq_refl)). lia.
Qed.
Print Assumptions C58_never_takes.

(** What one batch does to one live order: its pair's matching ends it, leaves it or records its fills;
    the expiry step ends what remains of an expired or too small order. *)
Theorem C58_order_fate : forall Q s s' i j o, batch_runs Q s s' -> get_order s i j = Some o -> live o = true ->
  exists iter pr sa o1 o', get_pair s i = Some pr /\ at_matching iter s pr sa /\ get_order s' i j = Some o' /\ after_expiry (st_time s) o1 o' /\
    ((ko_status o <> ONotExecuted /\ ko_expire o <= st_time s /\ o1 = ko_with_status o OExpired) \/
     exists hu uo, offered sa pr hu /\ In uo hu /\ stands_for uo o /\
       ((ko_status o1 <> ONotExecuted /\ o1 = ko_with_status o (ko_status o1) /\ live o1 = true) \/ exists fs m, fs <> [] /\ filled_by uo fs m /\ after_fills o o1 m)).
Proof.
  intros Q s s' i j o (R & B & iter & Hi & E) G L. destruct (batch_order Q iter Hi s s' R B E i j o G L) as (pr & sa & o1 & o' & Gp & Am & T & _ & F & G' & A).
  exists iter, pr, sa, o1, o'. split; [exact Gp|]. split; [exact Am|]. split; [exact G'|]. split; [exact A|].
  destruct F as [(Tr & X & ->)|(_ & hu & uo & O & I & St & F)].
  - left. split; [|split; [lia|reflexivity]]. intros Y. unfold tried in Tr. rewrite Y in Tr. discriminate Tr.
  - right. exists hu, uo. split; [exact O|]. split; [exact I|]. split; [exact St|]. destruct F as [->|F]; [left|right; exact F].
    unfold tried, live in *. cbn [ko_status ko_with_status]. destruct (ko_status o) eqn:Es; cbn in L; try discriminate L; (split; [discriminate|]; split; [reflexivity|reflexivity]).
Qed.
Print Assumptions C58_order_fate.

(** A batch in which a market making order of user 1 expires: 30000 coins come back. *)
Example C37_C58_example : exists s', batch_runs any_params (snd (after 1 trade5)) s' /\
  (exists o o', get_order (snd (after 1 trade5)) 1 4 = Some o /\ live o = true /\ ko_expire o <= st_time (snd (after 1 trade5)) /\ get_order s' 1 4 = Some o' /\ ko_status o' = OExpired) /\
  bal (st_bank s') (User 1) (Coin 1) - bal (st_bank (snd (after 1 trade5))) (User 1) (Coin 1) = 30000.
Proof.
  destruct (end_block idl (snd (after 1 trade5))) as [s'|] eqn:E; [|exfalso; revert E; vm_compute; discriminate].
  exists s'. split; [|].
  - split; [apply after_in_block; [reflexivity|vm_compute; reflexivity]|]. split; [vm_compute; reflexivity|]. exists idl. split; [exact idl_perm|exact E].
  - assert (X : match end_block idl (snd (after 1 trade5)) with Some t => match get_order (snd (after 1 trade5)) 1 4, get_order t 1 4 with Some o, Some o' => live o && (ko_expire o <=? st_time (snd (after 1 trade5))) && match ko_status o' with OExpired => true | _ => false end && (bal (st_bank t) (User 1) (Coin 1) - bal (st_bank (snd (after 1 trade5))) (User 1) (Coin 1) =? 30000) | _, _ => false end | None => false end = true) by (vm_compute; reflexivity).
    rewrite E in X. clear E. destruct (get_order (snd (after 1 trade5)) 1 4) as [o|]; [|discriminate X]. destruct (get_order s' 1 4) as [o'|]; [|discriminate X].
    apply andb_prop in X. destruct X as [X X4]. apply andb_prop in X. destruct X as [X X3]. apply andb_prop in X. destruct X as [X1 X2]. split; [|apply Z.eqb_eq; exact X4]. exists o, o'. split; [reflexivity|]. split; [exact X1|]. split; [apply Z.leb_le; exact X2|]. split; [reflexivity|]. destruct (ko_status o'); try discriminate X3. reflexivity.
Qed.
