(** * C91: a random tick can be any tick of the range, and is in the range *)
From Verif Require Import Base Dec TickModel TickSpec TickProofs RandomModel Props_Tick.

(** A random source: answers from 0 to n-1. *)
Definition fair_draw (draw : Z -> Z) : Prop := forall n, 0 < n -> 0 <= draw n < n.

Section range.
Variables (prec lo hi : Z).
Hypothesis Hp : 0 <= prec.
Hypothesis Hl : lowest_tick prec <= lo.
Hypothesis Hh : lo <= hi.

Lemma low_pos : 0 < lo.
Proof. pose proof (Z.pow_pos_nonneg 10 prec ltac:(lia) Hp). unfold lowest_tick in Hl. lia. Qed.
Lemma random_unfold draw : random_tick draw lo hi prec =
  let i := tick_to_index (price_to_up_tick lo prec) prec in let j := tick_to_index (price_to_down_tick hi prec) prec in
  if j - i <=? 0 then Panic else Ok (tick_from_index (i + draw (j - i)) prec).
Proof.
  pose proof low_pos. unfold random_tick, price_to_up_tick_chk, price_to_down_tick_chk. destruct (Z.eqb_spec lo 0) as [E|_]; [lia|]. destruct (Z.eqb_spec hi 0) as [E|_]; [lia|]. reflexivity.
Qed.
Lemma low_index : 0 <= tick_to_index (price_to_up_tick lo prec) prec /\ tick_from_index (tick_to_index (price_to_up_tick lo prec) prec) prec = price_to_up_tick lo prec.
Proof.
  destruct (C02_price_to_up_tick prec lo Hp low_pos) as ((T & L & _) & _). destruct (C04_tick_index_bijection prec Hp) as (A & _). apply A; [exact T|lia].
Qed.
Lemma index_order t u : is_tick prec t -> is_tick prec u -> lowest_tick prec <= t -> lowest_tick prec <= u -> (tick_to_index t prec < tick_to_index u prec <-> t < u).
Proof.
  intros T U Lt Lu. destruct (C04_tick_index_bijection prec Hp) as (_ & _ & M & _). split; [|intros X; exact (M t u T U Lt X)]. intros X.
  destruct (Z.lt_trichotomy t u) as [Y|[Y|Y]]; [exact Y|subst u; lia|]. pose proof (M u t U T Lu Y). lia.
Qed.
End range.

(** What is drawn is a tick, not below the lower price, and below the upper one. *)
Theorem C91_in_range_partial : forall draw prec lo hi t, fair_draw draw -> 0 <= prec -> lowest_tick prec <= lo -> lo <= hi ->
  random_tick draw lo hi prec = Ok t -> is_tick prec t /\ lo <= t < hi.
Proof.
  intros draw prec lo hi t F Hp Hl Hh H. rewrite (random_unfold prec lo hi Hp Hl Hh) in H. cbv zeta in H. destruct (Z.leb_spec (tick_to_index (price_to_down_tick hi prec) prec - tick_to_index (price_to_up_tick lo prec) prec) 0) as [_|P]; [discriminate H|].
  pose proof (low_pos prec lo Hp Hl). destruct (C01_price_to_down_tick prec hi Hp ltac:(lia)) as (_ & D & _). destruct (D ltac:(lia)) as (_ & T2 & L2 & _).
  destruct (C02_price_to_up_tick prec lo Hp ltac:(lia)) as ((T1 & L1 & _) & _). destruct (low_index prec lo Hp Hl) as (I1 & E1).
  set (i := tick_to_index (price_to_up_tick lo prec) prec) in *. set (j := tick_to_index (price_to_down_tick hi prec) prec) in *.
  pose proof (F (j - i) P) as B. destruct (C04_tick_index_bijection prec Hp) as (A & C & M & _). destruct (C (i + draw (j - i)) ltac:(lia)) as (T & L & E).
  assert (Et : t = tick_from_index (i + draw (j - i)) prec) by congruence. rewrite <- Et in T, L, E. clear H Et. split; [exact T|]. split.
  - destruct (Z.lt_ge_cases t (price_to_up_tick lo prec)) as [X|X]; [|lia]. pose proof (M t _ T T1 L X) as Y. fold i in Y. lia.
  - destruct (Z.lt_ge_cases t hi) as [X|X]; [exact X|]. exfalso. destruct (Z.eq_dec (price_to_down_tick hi prec) t) as [Z0|Z0].
    + assert (Ej : j = tick_to_index t prec) by (unfold j; rewrite Z0; reflexivity). lia.
    + assert (Y : price_to_down_tick hi prec < t) by lia. assert (Lh : lowest_tick prec <= price_to_down_tick hi prec).
      { destruct (Z.lt_ge_cases (price_to_down_tick hi prec) (lowest_tick prec)) as [W|W]; [|exact W]. exfalso. destruct (D ltac:(lia)) as (_ & _ & _ & G). assert (lo <= price_to_up_tick lo prec) by exact L1.
        assert (Tl : is_tick prec (lowest_tick prec)) by (exists 1, prec; unfold lowest_tick; split; [|split; [exact Hp|lia]]; split; [lia|]; apply Z.pow_gt_1; lia). pose proof (G _ Tl ltac:(lia)). lia. }
      pose proof (M _ _ T2 T Lh Y) as V. fold j in V. lia.
Qed.
Print Assumptions C91_in_range_partial.

(** Every tick of the range below the highest one can be drawn. *)
Theorem C91_every_tick_partial : forall prec lo hi t, 0 <= prec -> lowest_tick prec <= lo -> lo <= hi -> is_tick prec t -> lo <= t -> t < price_to_down_tick hi prec ->
  exists draw, fair_draw draw /\ random_tick draw lo hi prec = Ok t.
Proof.
  intros prec lo hi t Hp Hl Hh T L1 L2. pose proof (low_pos prec lo Hp Hl). destruct (C02_price_to_up_tick prec lo Hp ltac:(lia)) as ((T1 & M1 & G1) & _). pose proof (G1 t T L1) as G.
  destruct (C01_price_to_down_tick prec hi Hp ltac:(lia)) as (_ & D & _). destruct (D ltac:(lia)) as (_ & T2 & _ & _). destruct (C04_tick_index_bijection prec Hp) as (A & C & M & _).
  assert (Lt : lowest_tick prec <= t) by lia. pose proof (M t _ T T2 Lt L2) as X. destruct (A t T Lt) as (It & Et).
  assert (Y : tick_to_index (price_to_up_tick lo prec) prec <= tick_to_index t prec).
  { destruct (Z.eq_dec (price_to_up_tick lo prec) t) as [E|N]; [rewrite E; lia|]. assert (Q : price_to_up_tick lo prec < t) by lia. pose proof (M _ t T1 T ltac:(lia) Q). lia. }
  set (i := tick_to_index (price_to_up_tick lo prec) prec) in *. set (j := tick_to_index (price_to_down_tick hi prec) prec) in *.
  exists (fun n => if n =? j - i then tick_to_index t prec - i else 0). split.
  - intros n Pn. destruct (Z.eqb_spec n (j - i)); lia.
  - rewrite (random_unfold prec lo hi Hp Hl Hh). cbv zeta. fold i j. destruct (Z.leb_spec (j - i) 0) as [Q|_]; [lia|]. rewrite Z.eqb_refl. replace (i + (tick_to_index t prec - i)) with (tick_to_index t prec) by lia. rewrite Et. reflexivity.
Qed.
Print Assumptions C91_every_tick_partial.

(** The documented range [minPrice, maxPrice] is wrong at the top: the highest tick of the range is never
    drawn, whatever the random source. *)
Theorem C91_top_refuted : forall draw prec lo hi, fair_draw draw -> 0 <= prec -> lowest_tick prec <= lo -> lo <= hi -> is_tick prec hi -> random_tick draw lo hi prec <> Ok hi.
Proof. intros draw prec lo hi F Hp Hl Hh T H. destruct (C91_in_range_partial draw prec lo hi hi F Hp Hl Hh H) as (_ & X). lia. Qed.
Print Assumptions C91_top_refuted.
(** And a range with a single tick makes it panic. *)
Theorem C91_single_refuted : forall draw prec t, 0 <= prec -> lowest_tick prec <= t -> is_tick prec t -> random_tick draw t t prec = Panic.
Proof.
  intros draw prec t Hp Hl T. rewrite (random_unfold prec t t Hp Hl ltac:(lia)). cbv zeta. pose proof (low_pos prec t Hp Hl). destruct (C01_price_to_down_tick prec t Hp ltac:(lia)) as (_ & _ & E). rewrite (E T).
  destruct (C02_price_to_up_tick prec t Hp ltac:(lia)) as ((T1 & M1 & G1) & _). pose proof (G1 t T ltac:(lia)). assert (E2 : price_to_up_tick t prec = t) by lia. rewrite E2, Z.sub_diag. reflexivity.
Qed.
Print Assumptions C91_single_refuted.

(** Between 1.00005 and 1.0005 with 4 digits there are four ticks; the fourth is not drawn. *)
Example C91_example : let lo := 1000050000000000000 in let hi := 1000400000000000000 in
  map (fun k => random_tick (fun _ => k) lo hi 4) [0; 1; 2] = [Ok 1000100000000000000; Ok 1000200000000000000; Ok 1000300000000000000] /\ random_tick (fun n => n - 1) lo hi 4 = Ok 1000300000000000000 /\ lowest_tick 4 <= lo.
Proof. vm_compute. repeat split. discriminate. Qed.
