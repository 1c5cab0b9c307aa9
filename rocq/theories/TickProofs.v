(** Proofs about the tick grid. *)
From Verif Require Import Base Dec TickModel TickSpec.
From Coq Require Import Znumtheory.

Lemma pow10_pos e : 0 <= e -> 0 < 10 ^ e.
Proof. intros; apply Z.pow_pos_nonneg; lia. Qed.

Lemma pow10_S e : 0 <= e -> 10 ^ (e + 1) = 10 * 10 ^ e.
Proof. intros. rewrite Z.pow_add_r by lia. lia. Qed.

Lemma pow10_add a b : 0 <= a -> 0 <= b -> 10 ^ (a + b) = 10 ^ a * 10 ^ b.
Proof. intros; apply Z.pow_add_r; lia. Qed.

Lemma pow10_le a b : a <= b -> 10 ^ a <= 10 ^ b.
Proof. intros; apply Z.pow_le_mono_r; lia. Qed.

Lemma pow10_lt_inv a b : 10 ^ a < 10 ^ b -> a < b.
Proof.
  intros H. destruct (Z_lt_le_dec a b) as [?|Hle]; [assumption|].
  pose proof (pow10_le b a Hle). lia.
Qed.

Lemma pow10_ge1 a : 0 <= a -> 1 <= 10 ^ a.
Proof. intros H. pose proof (pow10_pos a H). lia. Qed.

Lemma ndigits_fuel_spec fuel : forall x, 0 < x -> x < 2 ^ (Z.of_nat fuel) ->
  1 <= ndigits_fuel fuel x /\ 10 ^ (ndigits_fuel fuel x - 1) <= x < 10 ^ (ndigits_fuel fuel x).
Proof.
  induction fuel as [|k IH]; intros x Hx Hlt.
  - simpl in Hlt. lia.
  - cbn [ndigits_fuel]. destruct (Z.ltb_spec x 10) as [Hs|Hs].
    + replace (1 - 1) with 0 by lia. change (10 ^ 0) with 1. change (10 ^ 1) with 10. lia.
    + assert (Hd : 0 < x / 10) by (apply Z.div_str_pos; lia).
      assert (Hd2 : x / 10 < 2 ^ Z.of_nat k).
      { rewrite Nat2Z.inj_succ, Z.pow_succ_r in Hlt by lia.
        apply Z.div_lt_upper_bound; [lia|].
        assert (0 < 2 ^ Z.of_nat k) by (apply Z.pow_pos_nonneg; lia). lia. }
      destruct (IH (x / 10) Hd Hd2) as (H1 & H2 & H3).
      set (n := ndigits_fuel k (x / 10)) in *.
      replace (1 + n - 1) with ((n - 1) + 1) by lia.
      replace (1 + n) with (n + 1) by lia.
      rewrite !pow10_S by lia.
      pose proof (Z.div_mod x 10 ltac:(lia)) as Hdm.
      pose proof (Z.mod_pos_bound x 10 ltac:(lia)) as Hm.
      lia.
Qed.

Lemma ndigits_spec x : 0 < x ->
  1 <= ndigits x /\ 10 ^ (ndigits x - 1) <= x < 10 ^ (ndigits x).
Proof.
  intros Hx. apply ndigits_fuel_spec; [assumption|].
  rewrite Nat2Z.inj_succ, Z2Nat.id by apply Z.log2_nonneg.
  apply Z.log2_spec; assumption.
Qed.

Lemma char_spec x : 0 < x -> 0 <= char x /\ 10 ^ (char x) <= x < 10 ^ (char x + 1).
Proof.
  intros Hx. destruct (ndigits_spec x Hx) as (H1 & H2). unfold char. destruct (Z.ltb_spec x 0) as [L|_]; [lia|].
  replace (ndigits x - 1 + 1) with (ndigits x) by lia. lia.
Qed.

Lemma char_unique x l : 0 <= l -> 10 ^ l <= x < 10 ^ (l + 1) -> char x = l.
Proof.
  intros Hl [H1 H2]. pose proof (pow10_pos l Hl) as Hp.
  destruct (char_spec x ltac:(lia)) as (Hc & H3 & H4).
  assert (10 ^ l < 10 ^ (char x + 1)) as A by lia.
  assert (10 ^ (char x) < 10 ^ (l + 1)) as B by lia.
  apply pow10_lt_inv in A. apply pow10_lt_inv in B. lia.
Qed.

Lemma char_pow10 l : 0 <= l -> char (10 ^ l) = l.
Proof.
  intros Hl. apply char_unique; [assumption|].
  pose proof (pow10_pos l Hl). rewrite pow10_S by assumption. lia.
Qed.

(** The spacing of the grid in the decade [10^l, 10^(l+1)). *)
Definition unit_at (prec l : Z) : Z := 10 ^ (Z.max 0 (l - prec)).

Lemma unit_pos prec l : 0 < unit_at prec l.
Proof. apply pow10_pos. lia. Qed.

Lemma pow10_unit prec l : pow10 (l - prec) = unit_at prec l.
Proof.
  unfold pow10, unit_at. destruct (Z.leb_spec (l - prec) 0).
  - rewrite Z.max_l by lia. reflexivity.
  - rewrite Z.max_r by lia. reflexivity.
Qed.

Lemma tick_pos prec v : is_tick prec v -> 0 < v.
Proof.
  intros (m & e & Hm & He & ->). pose proof (pow10_pos e He). nia.
Qed.

Lemma tick_divides prec l v : 0 <= prec -> 0 <= l -> is_tick prec v -> 10 ^ l <= v ->
  (unit_at prec l | v).
Proof.
  intros Hp Hl (m & e & Hm & He & ->) Hge.
  assert (10 ^ l < 10 ^ (prec + 1 + e)) as A.
  { rewrite pow10_add by lia. pose proof (pow10_pos e He). nia. }
  apply pow10_lt_inv in A.
  unfold unit_at. exists (m * 10 ^ (e - Z.max 0 (l - prec))).
  rewrite <- Z.mul_assoc, <- pow10_add by lia. f_equal. f_equal. lia.
Qed.

Lemma multiple_is_tick prec l v : 0 <= prec -> 0 <= l -> 0 < v <= 10 ^ (l + 1) ->
  (unit_at prec l | v) -> is_tick prec v.
Proof.
  intros Hp Hl Hv [k Hk].
  assert (v = 10 ^ (l + 1) \/ v < 10 ^ (l + 1)) as [E|Hlt] by lia.
  - exists 1, (l + 1). split; [|split; lia]. split; [lia|].
    rewrite pow10_S by lia. pose proof (pow10_pos prec Hp). lia.
  - exists k, (Z.max 0 (l - prec)). pose proof (unit_pos prec l) as Hu.
    split; [|split; [lia|exact Hk]]. split; [nia|].
    destruct (Z_lt_le_dec prec l) as [Hpl|Hpl].
    + unfold unit_at in *. rewrite Z.max_r in * by lia.
      replace (l + 1) with ((prec + 1) + (l - prec)) in Hlt by lia.
      rewrite pow10_add in Hlt by lia. nia.
    + assert (unit_at prec l = 1) as E by (unfold unit_at; rewrite Z.max_l by lia; reflexivity).
      rewrite E in *. pose proof (pow10_le (l + 1) (prec + 1) ltac:(lia)). lia.
Qed.

Lemma unit_divides_pow prec l : 0 <= prec -> 0 <= l -> (unit_at prec l | 10 ^ l).
Proof.
  intros. unfold unit_at. exists (10 ^ (l - Z.max 0 (l - prec))).
  rewrite <- pow10_add by lia. f_equal. lia.
Qed.

Lemma unit_divides_pow1 prec l : 0 <= prec -> 0 <= l -> (unit_at prec l | 10 ^ (l + 1)).
Proof.
  intros. rewrite pow10_S by lia. apply Z.divide_mul_r. apply unit_divides_pow; assumption.
Qed.

Lemma pow_is_tick prec l : 0 <= prec -> 0 <= l -> is_tick prec (10 ^ l).
Proof.
  intros Hp Hl. exists 1, l. split; [|split; lia]. split; [lia|].
  rewrite pow10_S by lia. pose proof (pow10_pos prec Hp). lia.
Qed.

Lemma down_tick_eq price prec : 0 < price ->
  price_to_down_tick price prec = price / unit_at prec (char price) * unit_at prec (char price).
Proof.
  intros Hp. unfold price_to_down_tick, unit_at.
  destruct (Z.ltb_spec 0 (char price - prec)) as [H|H].
  - rewrite Z.max_r by lia. rewrite Z.quot_div_nonneg by (pose proof (pow10_pos (char price - prec)); lia).
    reflexivity.
  - rewrite Z.max_l by lia. change (10 ^ 0) with 1. rewrite Z.div_1_r. lia.
Qed.

Lemma floor_mult_facts x u : 0 < u -> x / u * u <= x < x / u * u + u.
Proof.
  intros Hu. pose proof (Z.div_mod x u ltac:(lia)). pose proof (Z.mod_pos_bound x u Hu). lia.
Qed.

Lemma divide_le_floor x u v : 0 < u -> (u | v) -> v <= x -> v <= x / u * u.
Proof.
  intros Hu [k ->] Hle. apply Z.mul_le_mono_nonneg_r; [lia|].
  apply Z.div_le_lower_bound; lia.
Qed.

Lemma divide_gt_floor x u v : 0 < u -> (u | v) -> x < v -> x / u * u + u <= v.
Proof.
  intros Hu [k ->] Hlt.
  assert (x / u < k) by (apply Z.div_lt_upper_bound; lia). nia.
Qed.

(** basic facts about the rounded-down tick *)
Lemma down_tick_facts price prec : 0 <= prec -> 0 < price ->
  let l := char price in let u := unit_at prec l in let t := price_to_down_tick price prec in
  (u | t) /\ 10 ^ l <= t <= price /\ price < t + u /\ char t = l.
Proof.
  intros Hp Hx l u t.
  destruct (char_spec price Hx) as (Hl & H1 & H2). fold l in Hl, H1, H2.
  pose proof (unit_pos prec l) as Hu. fold u in Hu.
  assert (t = price / u * u) as Et by (apply down_tick_eq; assumption).
  pose proof (floor_mult_facts price u Hu) as Hf.
  assert (10 ^ l <= t) as A.
  { rewrite Et. apply divide_le_floor; [assumption|apply unit_divides_pow; assumption|assumption]. }
  split; [rewrite Et; exists (price / u); reflexivity|].
  split; [lia|]. split; [lia|].
  apply char_unique; lia.
Qed.

Lemma price_to_down_tick_spec price prec : 0 <= prec -> 0 < price ->
  greatest_tick_le prec price (price_to_down_tick price prec).
Proof.
  intros Hp Hx.
  destruct (down_tick_facts price prec Hp Hx) as (Hdiv & H1 & H2 & H3).
  destruct (char_spec price Hx) as (Hl & H4 & H5).
  pose proof (unit_pos prec (char price)) as Hu.
  pose proof (pow10_pos (char price) Hl) as Hpp.
  split; [|split; [lia|]].
  - apply multiple_is_tick with (l := char price); try assumption; lia.
  - intros v Hv Hle.
    destruct (Z_lt_le_dec v (10 ^ char price)) as [Hlt|Hge]; [lia|].
    rewrite down_tick_eq by assumption.
    apply divide_le_floor; [assumption|apply tick_divides; assumption|assumption].
Qed.

Lemma down_tick_id price prec : 0 <= prec -> is_tick prec price ->
  price_to_down_tick price prec = price.
Proof.
  intros Hp Ht. pose proof (tick_pos _ _ Ht) as Hx.
  destruct (price_to_down_tick_spec price prec Hp Hx) as (H1 & H2 & H3).
  specialize (H3 price Ht ltac:(lia)). lia.
Qed.

Lemma down_tick_fix_tick price prec : 0 <= prec -> 0 < price ->
  price_to_down_tick price prec = price -> is_tick prec price.
Proof.
  intros Hp Hx E. destruct (price_to_down_tick_spec price prec Hp Hx) as (H1 & _). rewrite E in H1. exact H1.
Qed.

Lemma up_tick_spec price prec : 0 <= prec -> 0 < price ->
  least_tick_gt prec price (up_tick price prec).
Proof.
  intros Hp Hx.
  destruct (down_tick_facts price prec Hp Hx) as (Hdiv & H1 & H2 & H3).
  destruct (char_spec price Hx) as (Hl & H4 & H5).
  set (l := char price) in *. set (u := unit_at prec l) in *.
  pose proof (unit_pos prec l) as Hu. fold u in Hu.
  pose proof (pow10_pos l Hl) as Hpp.
  assert (up_tick price prec = price_to_down_tick price prec + u) as E.
  { unfold up_tick. destruct (Z.eqb_spec (price_to_down_tick price prec) price) as [Eq|Ne].
    - rewrite Eq, pow10_unit. reflexivity.
    - rewrite H3, pow10_unit. reflexivity. }
  rewrite E. set (t := price_to_down_tick price prec) in *.
  assert (Hle : t + u <= 10 ^ (l + 1)).
  { assert (t = price / u * u) as Et by (apply down_tick_eq; assumption).
    rewrite Et. apply divide_gt_floor; [assumption|apply unit_divides_pow1; assumption|assumption]. }
  split; [|split; [lia|]].
  - apply multiple_is_tick with (l := l); try assumption; try lia.
    apply Z.divide_add_r; [assumption|apply Z.divide_refl].
  - intros v Hv Hgt.
    assert (t = price / u * u) as Et by (apply down_tick_eq; assumption).
    rewrite Et. apply divide_gt_floor; [assumption| |assumption].
    apply tick_divides; try assumption. lia.
Qed.

Lemma price_to_up_tick_spec price prec : 0 <= prec -> 0 < price ->
  least_tick_ge prec price (price_to_up_tick price prec).
Proof.
  intros Hp Hx. unfold price_to_up_tick.
  destruct (price_to_down_tick_spec price prec Hp Hx) as (D1 & D2 & D3).
  destruct (Z.eqb_spec (price_to_down_tick price prec) price) as [Eq|Ne].
  - rewrite Eq in *. split; [assumption|split; [lia|auto]].
  - pose proof (tick_pos _ _ D1) as Dp.
    destruct (up_tick_spec (price_to_down_tick price prec) prec Hp Dp) as (U1 & U2 & U3).
    split; [assumption|]. split.
    + destruct (Z_lt_le_dec (up_tick (price_to_down_tick price prec) prec) price) as [Hlt|]; [|assumption].
      specialize (D3 _ U1 ltac:(lia)). lia.
    + intros v Hv Hge. apply U3; [assumption|]. lia.
Qed.

Lemma is_pow10_loop_spec fuel : forall b, 0 < b -> b < 2 ^ Z.of_nat fuel ->
  is_pow10_loop fuel b = true <-> exists e, 0 <= e /\ b = 10 ^ e.
Proof.
  induction fuel as [|k IH]; intros b Hb Hlt.
  - simpl in Hlt. lia.
  - cbn [is_pow10_loop]. destruct (Z.leb_spec 10 b) as [Hge|Hlt10].
    + assert (Hd : 0 < b / 10) by (apply Z.div_str_pos; lia).
      assert (Hd2 : b / 10 < 2 ^ Z.of_nat k).
      { rewrite Nat2Z.inj_succ, Z.pow_succ_r in Hlt by lia.
        apply Z.div_lt_upper_bound; [lia|].
        assert (0 < 2 ^ Z.of_nat k) by (apply Z.pow_pos_nonneg; lia). lia. }
      pose proof (Z.div_mod b 10 ltac:(lia)) as Hdm.
      destruct (Z.eqb_spec (b mod 10) 0) as [Hm|Hm].
      * rewrite (IH _ Hd Hd2). split.
        -- intros (e & He & E). exists (e + 1). split; [lia|]. rewrite pow10_S by lia. lia.
        -- intros (e & He & E). assert (e <> 0) by (intros ->; change (10 ^ 0) with 1 in E; lia).
           exists (e - 1). split; [lia|]. replace e with ((e - 1) + 1) in E by lia.
           rewrite pow10_S in E by lia. lia.
      * split; [discriminate|]. intros (e & He & E). exfalso.
        assert (e <> 0) by (intros ->; change (10 ^ 0) with 1 in E; lia).
        replace e with ((e - 1) + 1) in E by lia. rewrite pow10_S in E by lia.
        apply Hm. rewrite E. rewrite Z.mul_comm. apply Z.mod_mul. lia.
    + split.
      * intros E. apply Z.eqb_eq in E. exists 0. split; [lia|]. rewrite E. reflexivity.
      * intros (e & He & E). apply Z.eqb_eq. destruct (Z.eq_dec e 0) as [->|Hne]; [assumption|].
        replace e with ((e - 1) + 1) in E by lia. rewrite pow10_S in E by lia.
        pose proof (pow10_pos (e - 1) ltac:(lia)). lia.
Qed.

Lemma is_pow10_spec b : 0 < b -> is_pow10 b = true <-> exists e, 0 <= e /\ b = 10 ^ e.
Proof.
  intros Hb. unfold is_pow10. destruct (Z.leb_spec b 0); [lia|].
  destruct (Z.eqb_spec b 10) as [->|Hne].
  - split; [|reflexivity]. intros _. exists 1. split; [lia|reflexivity].
  - apply is_pow10_loop_spec; [assumption|].
    rewrite Nat2Z.inj_succ, Z2Nat.id by apply Z.log2_nonneg.
    apply Z.log2_spec; assumption.
Qed.

Lemma div_step u a b : 0 < u -> (u | a) -> (u | b) -> a < b -> a <= b - u.
Proof. intros Hu [x ->] [y ->] Hlt. assert (x < y) by nia. nia. Qed.

(** one tick down: works for every price above the smallest decimal. *)
Lemma down_tick_spec price prec : 0 <= prec -> 1 < price ->
  greatest_tick_lt prec price (down_tick price prec).
Proof.
  intros Hp Hx1. assert (Hx : 0 < price) by lia.
  destruct (price_to_down_tick_spec price prec Hp Hx) as (D1 & D2 & D3).
  unfold down_tick.
  destruct (Z.eqb_spec (price_to_down_tick price prec) price) as [Eq|Ne].
  2:{ split; [assumption|split; [lia|]]. intros v Hv Hlt. apply D3; [assumption|lia]. }
  rewrite Eq in *. destruct (char_spec price Hx) as (Hl & H4 & H5).
  set (l := char price) in *.
  destruct (is_pow10 price) eqn:Epow.
  - apply is_pow10_spec in Epow; [|assumption]. destruct Epow as (e & He & E).
    assert (l = e) as El by (unfold l; rewrite E; apply char_pow10; assumption). subst e.
    assert (Hl1 : 1 <= l).
    { destruct (Z.eq_dec l 0) as [E0|]; [|lia]. rewrite E0 in E. change (10 ^ 0) with 1 in E. lia. }
    replace (l - prec - 1) with ((l - 1) - prec) by lia. rewrite pow10_unit.
    set (u := unit_at prec (l - 1)). pose proof (unit_pos prec (l - 1)) as Hu. fold u in Hu.
    assert (Hdiv : (u | price)).
    { rewrite E. replace l with ((l - 1) + 1) by lia. apply unit_divides_pow1; lia. }
    assert (Hul : u <= 10 ^ (l - 1)).
    { apply Z.divide_pos_le; [apply pow10_pos; lia|]. apply unit_divides_pow; lia. }
    assert (Hpl : price = 10 * 10 ^ (l - 1)).
    { rewrite E. replace l with ((l - 1) + 1) at 1 by lia. apply pow10_S. lia. }
    pose proof (pow10_pos (l - 1) ltac:(lia)) as Hpp.
    split; [|split; [lia|]].
    + apply multiple_is_tick with (l := l - 1); try lia.
      * rewrite pow10_S by lia. lia.
      * apply Z.divide_sub_r; [assumption|apply Z.divide_refl].
    + intros v Hv Hlt. destruct (Z_lt_le_dec v (10 ^ (l - 1))) as [Hs|Hs]; [lia|].
      pose proof (tick_divides prec (l - 1) v Hp ltac:(lia) Hv Hs) as Hdv. fold u in Hdv.
      apply div_step; assumption.
  - rewrite pow10_unit.
    set (u := unit_at prec l). pose proof (unit_pos prec l) as Hu. fold u in Hu.
    assert (Hdiv : (u | price)) by (apply tick_divides; assumption).
    assert (Hgt : 10 ^ l < price).
    { destruct (Z.eq_dec price (10 ^ l)) as [E|]; [|lia].
      assert (is_pow10 price = true) by (apply is_pow10_spec; [assumption|exists l; auto]). congruence. }
    assert (Hdp : (u | 10 ^ l)) by (apply unit_divides_pow; assumption).
    assert (Hge : 10 ^ l <= price - u).
    { apply div_step; assumption. }
    pose proof (pow10_pos l Hl) as Hpp.
    split; [|split; [lia|]].
    + apply multiple_is_tick with (l := l); try lia. apply Z.divide_sub_r; [assumption|apply Z.divide_refl].
    + intros v Hv Hlt. destruct (Z_lt_le_dec v (10 ^ l)) as [Hs|Hs]; [lia|].
      pose proof (tick_divides prec l v Hp Hl Hv Hs) as Hdv. fold u in Hdv.
      apply div_step; assumption.
Qed.

Lemma down_up_tick price prec : 0 <= prec -> is_tick prec price ->
  down_tick (up_tick price prec) prec = price.
Proof.
  intros Hp Ht. pose proof (tick_pos _ _ Ht) as Hx.
  destruct (up_tick_spec price prec Hp Hx) as (U1 & U2 & U3).
  destruct (down_tick_spec (up_tick price prec) prec Hp ltac:(lia)) as (D1 & D2 & D3).
  pose proof (D3 price Ht U2). destruct (Z_lt_le_dec price (down_tick (up_tick price prec) prec)) as [Hlt|]; [|lia].
  specialize (U3 _ D1 Hlt). lia.
Qed.

Lemma up_down_tick price prec : 0 <= prec -> is_tick prec price -> 1 < price ->
  up_tick (down_tick price prec) prec = price.
Proof.
  intros Hp Ht Hx.
  destruct (down_tick_spec price prec Hp Hx) as (D1 & D2 & D3).
  destruct (up_tick_spec (down_tick price prec) prec Hp (tick_pos _ _ D1)) as (U1 & U2 & U3).
  pose proof (U3 price Ht D2). destruct (Z_lt_le_dec (up_tick (down_tick price prec) prec) price) as [Hlt|]; [|lia].
  specialize (D3 _ U1 Hlt). lia.
Qed.

(** ** Tick indices *)

Lemma ndigits_char x : 0 <= x -> ndigits x - 1 = char x.
Proof. intros H. unfold char. destruct (Z.ltb_spec x 0); [lia|reflexivity]. Qed.

(** A tick at or above the lowest indexed tick is [b * 10^k] with a full mantissa. *)
Lemma tick_full prec v : 0 <= prec -> is_tick prec v -> lowest_tick prec <= v ->
  exists b k, 10 ^ prec <= b < 10 ^ (prec + 1) /\ 0 <= k /\ v = b * 10 ^ k /\ char v = prec + k.
Proof.
  intros Hp Ht Hlow. unfold lowest_tick in Hlow. pose proof (tick_pos _ _ Ht) as Hx.
  destruct (char_spec v Hx) as (Hl & H4 & H5). set (l := char v) in *.
  assert (Hpl : prec <= l).
  { assert (10 ^ prec < 10 ^ (l + 1)) as A by lia. apply pow10_lt_inv in A. lia. }
  destruct (tick_divides prec l v Hp Hl Ht H4) as [b Hb].
  unfold unit_at in Hb. rewrite Z.max_r in Hb by lia.
  exists b, (l - prec). pose proof (pow10_pos (l - prec) ltac:(lia)) as Hu.
  assert (10 ^ l = 10 ^ prec * 10 ^ (l - prec)) as E1 by (rewrite <- pow10_add by lia; f_equal; lia).
  assert (10 ^ (l + 1) = 10 ^ (prec + 1) * 10 ^ (l - prec)) as E2 by (rewrite <- pow10_add by lia; f_equal; lia).
  split; [nia|]. split; [lia|]. split; [assumption|lia].
Qed.

Lemma tick_to_index_full prec b k : 0 <= prec -> 0 <= k -> 10 ^ prec <= b < 10 ^ (prec + 1) ->
  tick_to_index (b * 10 ^ k) prec = k * 9 * 10 ^ prec + (b - 10 ^ prec).
Proof.
  intros Hp Hk Hb. pose proof (pow10_pos k Hk) as Hkp. pose proof (pow10_pos prec Hp) as Hpp.
  assert (char (b * 10 ^ k) = prec + k) as E.
  { apply char_unique; [lia|]. replace (prec + k + 1) with ((prec + 1) + k) by lia.
    rewrite !pow10_add by lia. rewrite pow10_add in Hb by lia. nia. }
  unfold tick_to_index. rewrite ndigits_char, E by (apply Z.mul_nonneg_nonneg; [pose proof (pow10_pos prec ltac:(lia)); lia|apply Z.lt_le_incl, pow10_pos; lia]). replace (prec + k - prec) with k by lia.
  destruct (Z.ltb_spec 0 k) as [H|H].
  - rewrite Z.quot_mul by lia. lia.
  - replace k with 0 by lia. change (10 ^ 0) with 1. lia.
Qed.

Lemma tick_from_index_full prec i : 0 <= prec -> 0 <= i ->
  tick_from_index i prec = (10 ^ prec + i mod (9 * 10 ^ prec)) * 10 ^ (i / (9 * 10 ^ prec)).
Proof.
  intros Hp Hi. pose proof (pow10_pos prec Hp) as Hpp.
  unfold tick_from_index. rewrite Z.quot_div_nonneg, Z.rem_mod_nonneg by lia.
  rewrite (Z.mul_comm (10 ^ prec) 9).
  assert (0 <= i / (9 * 10 ^ prec)) as Hq by (apply Z.div_pos; lia).
  destruct (Z.ltb_spec prec (i / (9 * 10 ^ prec) + prec)) as [H|H].
  - f_equal. f_equal. lia.
  - replace (i / (9 * 10 ^ prec)) with 0 by lia. change (10 ^ 0) with 1. lia.
Qed.

Lemma index_mantissa prec i : 0 <= prec -> 0 <= i ->
  10 ^ prec <= 10 ^ prec + i mod (9 * 10 ^ prec) < 10 ^ (prec + 1).
Proof.
  intros Hp Hi. pose proof (pow10_pos prec Hp) as Hpp. rewrite pow10_S by lia.
  pose proof (Z.mod_pos_bound i (9 * 10 ^ prec) ltac:(lia)). lia.
Qed.

Lemma tick_from_index_tick prec i : 0 <= prec -> 0 <= i ->
  is_tick prec (tick_from_index i prec) /\ lowest_tick prec <= tick_from_index i prec.
Proof.
  intros Hp Hi. rewrite tick_from_index_full by assumption.
  pose proof (index_mantissa prec i Hp Hi) as Hm. pose proof (pow10_pos prec Hp) as Hpp.
  assert (0 <= i / (9 * 10 ^ prec)) as Hq by (apply Z.div_pos; lia).
  split.
  - exists (10 ^ prec + i mod (9 * 10 ^ prec)), (i / (9 * 10 ^ prec)). split; [lia|]. split; [assumption|reflexivity].
  - unfold lowest_tick. pose proof (pow10_ge1 _ Hq). nia.
Qed.

Lemma index_of_tick_from_index prec i : 0 <= prec -> 0 <= i ->
  tick_to_index (tick_from_index i prec) prec = i.
Proof.
  intros Hp Hi. pose proof (pow10_pos prec Hp) as Hpp.
  rewrite tick_from_index_full by assumption.
  rewrite tick_to_index_full; [|assumption|apply Z.div_pos; lia|apply index_mantissa; assumption].
  pose proof (Z.div_mod i (9 * 10 ^ prec) ltac:(lia)). lia.
Qed.

Lemma tick_from_index_of_index prec v : 0 <= prec -> is_tick prec v -> lowest_tick prec <= v ->
  0 <= tick_to_index v prec /\ tick_from_index (tick_to_index v prec) prec = v.
Proof.
  intros Hp Ht Hlow. destruct (tick_full prec v Hp Ht Hlow) as (b & k & Hb & Hk & E & _).
  subst v. pose proof (pow10_pos prec Hp) as Hpp.
  rewrite tick_to_index_full by assumption.
  rewrite pow10_S in Hb by assumption.
  assert (0 <= k * 9 * 10 ^ prec) by nia.
  split; [lia|]. rewrite tick_from_index_full by lia.
  replace (k * 9 * 10 ^ prec + (b - 10 ^ prec)) with ((b - 10 ^ prec) + k * (9 * 10 ^ prec)) by lia.
  rewrite Z.mod_add, Z.div_add by lia.
  rewrite Z.mod_small, Z.div_small by lia. rewrite Z.add_0_l. f_equal. lia.
Qed.

(** consecutive indices are consecutive ticks *)
Lemma tick_from_index_succ prec i : 0 <= prec -> 0 <= i ->
  tick_from_index (i + 1) prec = up_tick (tick_from_index i prec) prec.
Proof.
  intros Hp Hi. pose proof (pow10_pos prec Hp) as Hpp.
  destruct (tick_from_index_tick prec i Hp Hi) as [Ht Hlow].
  set (q := i / (9 * 10 ^ prec)). set (r := i mod (9 * 10 ^ prec)).
  assert (Hq : 0 <= q) by (apply Z.div_pos; lia).
  pose proof (Z.div_mod i (9 * 10 ^ prec) ltac:(lia)) as Hdm. fold q r in Hdm.
  pose proof (Z.mod_pos_bound i (9 * 10 ^ prec) ltac:(lia)) as Hr. fold r in Hr.
  pose proof (pow10_pos q Hq) as Hqp.
  assert (Ei : tick_from_index i prec = (10 ^ prec + r) * 10 ^ q) by (apply tick_from_index_full; assumption).
  assert (Ec : char (tick_from_index i prec) = prec + q).
  { rewrite Ei. apply char_unique; [lia|]. replace (prec + q + 1) with ((prec + 1) + q) by lia.
    rewrite !pow10_add by lia. nia. }
  assert (Eup : up_tick (tick_from_index i prec) prec = (10 ^ prec + r) * 10 ^ q + 10 ^ q).
  { unfold up_tick. rewrite down_tick_id by assumption. rewrite Z.eqb_refl, Ec, pow10_unit.
    unfold unit_at. replace (prec + q - prec) with q by lia. rewrite Z.max_r by lia. lia. }
  rewrite Eup. rewrite tick_from_index_full by lia.
  destruct (Z.eq_dec r (9 * 10 ^ prec - 1)) as [Er|Er].
  - replace (i + 1) with ((q + 1) * (9 * 10 ^ prec)) by lia.
    rewrite Z.mod_mul, Z.div_mul by lia. rewrite pow10_S by lia. rewrite Er. nia.
  - replace (i + 1) with ((r + 1) + q * (9 * 10 ^ prec)) by lia.
    rewrite Z.mod_add, Z.div_add by lia. rewrite Z.mod_small, Z.div_small by lia. rewrite Z.add_0_l. nia.
Qed.

Lemma tick_from_index_lt_succ prec i : 0 <= prec -> 0 <= i ->
  tick_from_index i prec < tick_from_index (i + 1) prec.
Proof.
  intros Hp Hi. rewrite tick_from_index_succ by assumption.
  destruct (tick_from_index_tick prec i Hp Hi) as [Ht Hlow].
  destruct (up_tick_spec _ prec Hp (tick_pos _ _ Ht)) as (_ & ? & _). assumption.
Qed.

Lemma tick_from_index_mono prec i j : 0 <= prec -> 0 <= i -> i < j ->
  tick_from_index i prec < tick_from_index j prec.
Proof.
  intros Hp Hi Hij.
  assert (forall n : nat, tick_from_index i prec < tick_from_index (i + 1 + Z.of_nat n) prec) as A.
  { induction n as [|n IH].
    - rewrite Z.add_0_r. apply tick_from_index_lt_succ; assumption.
    - eapply Z.lt_trans; [exact IH|]. rewrite Nat2Z.inj_succ.
      replace (i + 1 + Z.succ (Z.of_nat n)) with ((i + 1 + Z.of_nat n) + 1) by lia.
      apply tick_from_index_lt_succ; lia. }
  specialize (A (Z.to_nat (j - i - 1))). rewrite Z2Nat.id in A by lia.
  replace (i + 1 + (j - i - 1)) with j in A by lia. assumption.
Qed.

Lemma tick_from_index_mono_le prec i j : 0 <= prec -> 0 <= i -> i <= j ->
  tick_from_index i prec <= tick_from_index j prec.
Proof.
  intros Hp Hi Hij. assert (i = j \/ i < j) as [->|H] by lia; [lia|].
  pose proof (tick_from_index_mono prec i j Hp Hi H). lia.
Qed.

Lemma tick_to_index_mono prec v w : 0 <= prec -> is_tick prec v -> is_tick prec w ->
  lowest_tick prec <= v -> v < w -> tick_to_index v prec < tick_to_index w prec.
Proof.
  intros Hp Hv Hw Hlow Hlt.
  destruct (tick_from_index_of_index prec v Hp Hv Hlow) as [Nv Ev].
  destruct (tick_from_index_of_index prec w Hp Hw ltac:(lia)) as [Nw Ew].
  destruct (Z_lt_le_dec (tick_to_index v prec) (tick_to_index w prec)) as [|Hle]; [assumption|].
  pose proof (tick_from_index_mono_le prec _ _ Hp Nw Hle). lia.
Qed.

Lemma tick_to_index_mono_le prec v w : 0 <= prec -> is_tick prec v -> is_tick prec w ->
  lowest_tick prec <= v -> v <= w -> tick_to_index v prec <= tick_to_index w prec.
Proof.
  intros Hp Hv Hw Hlow Hle. assert (v = w \/ v < w) as [->|H] by lia; [lia|].
  pose proof (tick_to_index_mono prec v w Hp Hv Hw Hlow H). lia.
Qed.

Lemma tick_to_index_lowest prec : 0 <= prec -> tick_to_index (lowest_tick prec) prec = 0.
Proof.
  intros Hp. unfold lowest_tick. pose proof (pow10_pos prec Hp).
  replace (10 ^ prec) with (10 ^ prec * 10 ^ 0) by (change (10 ^ 0) with 1; lia).
  rewrite tick_to_index_full; try lia. rewrite pow10_S by lia. lia.
Qed.

Lemma lowest_is_tick prec : 0 <= prec -> is_tick prec (lowest_tick prec).
Proof. intros; apply pow_is_tick; assumption. Qed.

Lemma down_tick_ge_lowest prec price : 0 <= prec -> lowest_tick prec <= price ->
  lowest_tick prec <= price_to_down_tick price prec.
Proof.
  intros Hp Hlow. pose proof (tick_pos _ _ (lowest_is_tick prec Hp)).
  destruct (price_to_down_tick_spec price prec Hp ltac:(lia)) as (_ & _ & H3).
  apply H3; [apply lowest_is_tick; assumption|assumption].
Qed.

(** RoundPrice: the price itself on the grid, otherwise the neighbour with an even index. *)
Lemma round_price_tick price prec : 0 <= prec -> is_tick prec price -> round_price price prec = price.
Proof.
  intros Hp Ht. unfold round_price. rewrite down_tick_id by assumption. rewrite Z.eqb_refl. reflexivity.
Qed.

Lemma round_tick_index_spec i : 0 <= i ->
  round_tick_index i = if Z.even i then i else i + 1.
Proof.
  intros Hi. unfold round_tick_index. rewrite Z.quot_div_nonneg by lia.
  rewrite Zeven_mod. pose proof (Z.div_mod i 2 ltac:(lia)). pose proof (Z.div_mod (i + 1) 2 ltac:(lia)).
  pose proof (Z.mod_pos_bound i 2 ltac:(lia)). pose proof (Z.mod_pos_bound (i + 1) 2 ltac:(lia)).
  unfold Zeq_bool. destruct (i mod 2 ?= 0) eqn:E.
  - apply Z.compare_eq in E. lia.
  - change (i mod 2 < 0) in E. lia.
  - change (i mod 2 > 0) in E. lia.
Qed.

Lemma round_price_spec price prec : 0 <= prec -> lowest_tick prec <= price -> ~ is_tick prec price ->
  (greatest_tick_lt prec price (round_price price prec) \/ least_tick_gt prec price (round_price price prec))
  /\ Z.even (tick_to_index (round_price price prec) prec) = true.
Proof.
  intros Hp Hlow Hnt.
  pose proof (tick_pos _ _ (lowest_is_tick prec Hp)) as Hlp.
  assert (Hx : 0 < price) by lia.
  destruct (price_to_down_tick_spec price prec Hp Hx) as (D1 & D2 & D3).
  pose proof (down_tick_ge_lowest prec price Hp Hlow) as Hdl.
  set (t := price_to_down_tick price prec) in *.
  assert (Hne : t <> price) by (intros E; apply Hnt; rewrite <- E; assumption).
  unfold round_price. fold t. destruct (Z.eqb_spec price t) as [E|_]; [congruence|].
  destruct (tick_from_index_of_index prec t Hp D1 Hdl) as [Ni Ei].
  set (i := tick_to_index t prec) in *.
  rewrite round_tick_index_spec by assumption.
  destruct (Z.even i) eqn:Ev.
  - rewrite Ei. split; [left|exact Ev].
    split; [assumption|split; [lia|]]. intros u Hu Hlt. apply D3; [assumption|lia].
  - split.
    + right. rewrite tick_from_index_succ, Ei by assumption.
      destruct (up_tick_spec t prec Hp (tick_pos _ _ D1)) as (U1 & U2 & U3).
      split; [assumption|]. split.
      * destruct (Z_lt_le_dec price (up_tick t prec)) as [|Hle]; [assumption|].
        specialize (D3 _ U1 Hle). lia.
      * intros u Hu Hgt. apply U3; [assumption|lia].
    + rewrite index_of_tick_from_index by lia. rewrite Z.add_1_r, Z.even_succ, <- Z.negb_even, Ev. reflexivity.
Qed.

(** The tick gap is the distance to the next tick. *)
Lemma tick_gap_spec price prec : 0 <= prec -> 0 < price ->
  up_tick price prec = price_to_down_tick price prec + tick_gap price prec.
Proof.
  intros Hp Hx. destruct (down_tick_facts price prec Hp Hx) as (_ & _ & _ & H3).
  unfold up_tick, tick_gap. rewrite H3.
  destruct (Z.eqb_spec (price_to_down_tick price prec) price) as [Eq|Ne]; lia.
Qed.

Lemma down_tick_mono price price' prec : 0 <= prec -> 0 < price -> price <= price' ->
  price_to_down_tick price prec <= price_to_down_tick price' prec.
Proof.
  intros Hp Hx Hle.
  destruct (price_to_down_tick_spec price prec Hp Hx) as (A1 & A2 & _).
  destruct (price_to_down_tick_spec price' prec Hp ltac:(lia)) as (_ & _ & B3).
  apply B3; [assumption|lia].
Qed.
