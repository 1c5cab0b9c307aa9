(** Properties C01-C05: the tick grid.  Statements use only TickSpec (what a tick is) and the
    modelled functions.  Raw prices: the price 1.0 is [10^18]; [prec] is the tick precision (the
    chain default is 3 or 4). *)
From Verif Require Import Base Dec TickModel TickSpec DecProofs TickProofs.

(** C01: PriceToDownTick is the greatest tick not above the price; ticks are fixed points; a
    zero price is the only rejected non-negative one. *)
Theorem C01_price_to_down_tick : forall prec price, 0 <= prec -> 0 <= price ->
  (price_to_down_tick_chk price prec = Panic <-> price = 0) /\
  (0 < price -> price_to_down_tick_chk price prec = Ok (price_to_down_tick price prec) /\
     greatest_tick_le prec price (price_to_down_tick price prec)) /\
  (is_tick prec price -> price_to_down_tick price prec = price).
Proof.
  intros prec price Hp Hx. unfold price_to_down_tick_chk. split; [|split].
  - destruct (Z.eqb_spec price 0); split; congruence.
  - intros H. split; [destruct (Z.eqb_spec price 0); [lia|reflexivity]|exact (price_to_down_tick_spec price prec Hp H)].
  - exact (down_tick_id price prec Hp).
Qed.
Print Assumptions C01_price_to_down_tick.

(** C02: PriceToUpTick is the least tick not below the price, UpTick the least tick strictly
    above it (for every positive price, tick or not). *)
Theorem C02_price_to_up_tick : forall prec price, 0 <= prec -> 0 < price ->
  least_tick_ge prec price (price_to_up_tick price prec) /\
  least_tick_gt prec price (up_tick price prec).
Proof. exact (fun prec price Hp Hx => conj (price_to_up_tick_spec price prec Hp Hx) (up_tick_spec price prec Hp Hx)). Qed.
Print Assumptions C02_price_to_up_tick.

(** C03: DownTick is the greatest tick strictly below any price above the smallest decimal (raw
    1), in particular above the lowest tick; on ticks, up-then-down and down-then-up give back
    the tick. *)
Theorem C03_down_tick : forall prec price, 0 <= prec ->
  (1 < price -> greatest_tick_lt prec price (down_tick price prec)) /\
  (is_tick prec price -> down_tick (up_tick price prec) prec = price) /\
  (is_tick prec price -> 1 < price -> up_tick (down_tick price prec) prec = price).
Proof. exact (fun prec price Hp => conj (down_tick_spec price prec Hp) (conj (down_up_tick price prec Hp) (up_down_tick price prec Hp))). Qed.
Print Assumptions C03_down_tick.

(** C04: between the ticks from the lowest tick upwards and the non negative integers,
    TickToIndex and TickFromIndex are inverse, order preserving, and consecutive. *)
Theorem C04_tick_index_bijection : forall prec, 0 <= prec ->
  (forall t, is_tick prec t -> lowest_tick prec <= t ->
     0 <= tick_to_index t prec /\ tick_from_index (tick_to_index t prec) prec = t) /\
  (forall i, 0 <= i -> is_tick prec (tick_from_index i prec) /\ lowest_tick prec <= tick_from_index i prec /\
     tick_to_index (tick_from_index i prec) prec = i) /\
  (forall t u, is_tick prec t -> is_tick prec u -> lowest_tick prec <= t -> t < u -> tick_to_index t prec < tick_to_index u prec) /\
  (forall i j, 0 <= i -> i < j -> tick_from_index i prec < tick_from_index j prec) /\
  (forall i, 0 <= i -> least_tick_gt prec (tick_from_index i prec) (tick_from_index (i + 1) prec)).
Proof.
  intros prec Hp. split; [|split; [|split; [|split]]].
  - exact (fun t => tick_from_index_of_index prec t Hp).
  - intros i Hi. destruct (tick_from_index_tick prec i Hp Hi) as [A B]. exact (conj A (conj B (index_of_tick_from_index prec i Hp Hi))).
  - exact (fun t u => tick_to_index_mono prec t u Hp).
  - exact (fun i j => tick_from_index_mono prec i j Hp).
  - intros i Hi. rewrite tick_from_index_succ by assumption. apply up_tick_spec; [assumption|].
    apply (tick_pos prec). apply tick_from_index_tick; assumption.
Qed.
Print Assumptions C04_tick_index_bijection.

(** C05, proved part: RoundPrice returns the price itself if it is a tick, otherwise one of the
    two adjacent ticks, namely the one with an even index.  Missing from the full property: the
    result need not be the nearer of the two (see the refutation). *)
Theorem C05_round_price_partial : forall prec price, 0 <= prec -> lowest_tick prec <= price ->
  (is_tick prec price -> round_price price prec = price) /\
  (~ is_tick prec price ->
     (greatest_tick_lt prec price (round_price price prec) \/ least_tick_gt prec price (round_price price prec)) /\
     Z.even (tick_to_index (round_price price prec) prec) = true).
Proof. exact (fun prec price Hp Hl => conj (round_price_tick price prec Hp) (round_price_spec price prec Hp Hl)). Qed.
Print Assumptions C05_round_price_partial.

(** C05, full property (nearest tick) is false of the code: 1.0009 at precision 3 is rounded to
    1.000 although 1.001 is nearer. *)
Theorem C05_round_price_nearest_refuted : exists prec price t,
  0 <= prec /\ lowest_tick prec <= price /\ is_tick prec t /\
  Z.abs (price - t) < Z.abs (price - round_price price prec).
Proof.
  exists 3, 1000900000000000000, 1001000000000000000. split; [lia|]. split; [vm_compute; discriminate|]. split.
  - exists 1001, 15. split; [|split]; vm_compute; repeat split; discriminate.
  - vm_compute. reflexivity.
Qed.
Print Assumptions C05_round_price_nearest_refuted.

(** Concrete non-trivial cases of the hypotheses above. *)
Example tick_examples :
  is_tick 3 1234000000000000000 /\ ~ is_tick 3 1234500000000000000 /\
  price_to_down_tick 1234500000000000000 3 = 1234000000000000000 /\
  price_to_up_tick 1234500000000000000 3 = 1235000000000000000 /\
  down_tick 1000000000000000000 3 = 999900000000000000 /\
  up_tick 999900000000000000 3 = 1000000000000000000 /\
  tick_from_index (tick_to_index 1234000000000000000 3) 3 = 1234000000000000000 /\
  lowest_tick 3 <= 1234500000000000000.
Proof.
  split; [exists 1234, 15; split; [|split]; vm_compute; repeat split; discriminate|]. split.
  - intros H. apply (down_tick_id _ 3) in H; [|lia]. vm_compute in H. discriminate.
  - vm_compute. repeat split; discriminate.
Qed.
