(** A basic pool seen by FindMatchPrice never panics while its reserves are below 2^196. *)
From Verif Require Import Base Dec DecProofs TickModel OrderModel MatchModel MatchSpec PoolModel PoolProofs PoolOrderProofs.

Lemma basic_price rx ry ps : 0 < rx < 2 ^ 196 -> 0 < ry -> exists pp, pool_price (Basic rx ry ps) = Ok pp /\ 0 <= pp /\ 2 * (pp * ry) <= 2 * (rx * P18) + ry /\ rx * P18 <= (pp + 1) * ry.
Proof.
  intros [X1 X2] Y. pose proof P18_pos as Hp. unfold pool_price. destruct (Z.eqb_spec rx 0); [lia|]. destruct (Z.eqb_spec ry 0); [lia|]. cbn [orb].
  unfold c_quo, of_int. destruct (Z.eqb_spec (ry * P18) 0) as [E|E]; [nia|]. clear E.
  assert (E : dquo (rx * P18) (ry * P18) = chop_round (rx * P18 * P18 / ry)).
  { unfold dquo. f_equal. rewrite Z.quot_div_nonneg by nia. rewrite Z.div_mul_cancel_r by lia. reflexivity. }
  rewrite E. clear E. remember (rx * P18 * P18 / ry) as z eqn:Ez. assert (Z0 : 0 <= z) by (subst z; apply Z.div_pos; nia).
  pose proof (div_bounds (rx * P18 * P18) ry Y) as D. rewrite <- Ez in D. clear Ez. pose proof (chop_round_bounds z Z0) as B. remember (chop_round z) as c eqn:Ec. clear Ec.
  assert (C0 : 0 <= c) by nia.
  assert (U : 2 * (c * P18) * ry <= (2 * z + P18) * ry) by (apply Z.mul_le_mono_nonneg_r; lia).
  assert (V : (2 * z - P18) * ry <= 2 * (c * P18) * ry) by (apply Z.mul_le_mono_nonneg_r; lia).
  assert (T : 2 * ry <= P18 * ry) by (apply Z.mul_le_mono_nonneg_r; [lia|discriminate]).
  assert (U1 : P18 * (2 * (c * ry)) <= P18 * (2 * (rx * P18) + ry)) by lia. apply Z.mul_le_mono_pos_l in U1; [|exact Hp].
  assert (V1 : P18 * (rx * P18) <= P18 * ((c + 1) * ry)) by lia. apply Z.mul_le_mono_pos_l in V1; [|exact Hp].
  exists c. assert (c < 2 ^ 315).
  { assert (2 * c <= 2 * (rx * P18) + 1) by nia. assert (rx * P18 < 2 ^ 196 * P18) by (apply Z.mul_lt_mono_pos_r; lia). assert (2 ^ 196 * P18 < 2 ^ 314) by reflexivity. change (2 ^ 315) with (2 * 2 ^ 314). lia. }
  split; [apply chk_dec_fits; lia|]. split; [exact C0|]. split; [exact U1|exact V1].
Qed.

Lemma basic_buy_ok rx ry ps price : 0 < rx < 2 ^ 196 -> 0 < ry < 2 ^ 196 -> 0 < price -> exists a, buy_amount_over (Basic rx ry ps) price = Ok a.
Proof.
  intros X Y Hpr. pose proof P18_pos as Hp. destruct (basic_price rx ry ps X ltac:(lia)) as (pp & E & P0 & U & V). unfold buy_amount_over. rewrite E. cbn [rbind].
  remember (if price <? min_pool_price then min_pool_price else price) as q eqn:Eq. assert (Q : 0 < q) by (subst q; destruct (price <? min_pool_price); [reflexivity|assumption]).
  destruct (Z.leb_spec pp q) as [L|L]; [eauto|].
  assert (B1 : 0 <= q * ry <= pp * ry) by nia. assert (B2 : rx * P18 < 2 ^ 196 * P18) by (apply Z.mul_lt_mono_pos_r; lia).
  assert (B3 : 2 ^ 196 * P18 < 2 ^ 300) by reflexivity. assert (B4 : 2 ^ 300 < 2 ^ 315) by reflexivity. assert (B5 : 2 ^ 196 < 2 ^ 300) by reflexivity.
  unfold c_mul_int, dmul_int. rewrite chk_dec_fits by lia. cbn [rbind]. unfold c_sub, of_int. rewrite chk_dec_fits by nia. cbn [rbind].
  destruct (Z.leb_spec (rx * P18 - q * ry) 0); [eauto|]. unfold capped_quo.
  apply safe_math_not_panic. repeat no_panic. lia.
Qed.

Lemma basic_sell_ok rx ry ps price : 0 < rx < 2 ^ 196 -> 0 < ry < 2 ^ 196 -> exists a, sell_amount_under (Basic rx ry ps) price = Ok a.
Proof.
  intros X Y. pose proof P18_pos as Hp. destruct (basic_price rx ry ps X ltac:(lia)) as (pp & E & P0 & U & V). unfold sell_amount_under. rewrite E. cbn [rbind].
  remember (if max_pool_price <? price then max_pool_price else price) as q eqn:Eq.
  destruct (Z.leb_spec q pp) as [L|L]; [eauto|]. clear Eq.
  assert (B3 : 2 ^ 196 * P18 < 2 ^ 256 - 1) by reflexivity. assert (B4 : 2 ^ 256 < 2 ^ 315) by reflexivity.
  assert (W : rx * P18 <= q * ry) by nia.
  assert (D : 0 <= dquo_up (rx * P18) q <= ry * P18).
  { unfold dquo_up, chop_up. rewrite Z.quot_div_nonneg by nia. remember (rx * P18 * P18 * P18 / q) as z eqn:Ez.
    assert (Z1 : z <= ry * P18 * P18).
    { subst z. apply Z.div_le_upper_bound; [lia|]. nia. }
    assert (Z0 : 0 <= z) by (subst z; apply Z.div_pos; nia). clear Ez. destruct (Z.ltb_spec z 0); [lia|].
    assert (F : 0 <= z / P18) by (apply Z.div_pos; lia). pose proof (Z.div_mod z P18 ltac:(lia)) as DM. pose proof (Z.mod_pos_bound z P18 Hp) as MB.
    remember (z / P18) as f eqn:Ef. remember (z mod P18) as m eqn:Em. clear Ef Em. destruct (Z.eqb_spec m 0); nia. }
  unfold c_quo_up, of_int. destruct (Z.eqb_spec q 0); [lia|]. remember (dquo_up (rx * P18) q) as v eqn:Ev. clear Ev.
  assert (B2 : ry * P18 < 2 ^ 196 * P18) by (apply Z.mul_lt_mono_pos_r; lia).
  rewrite chk_dec_fits by lia. cbn [rbind]. unfold c_sub. rewrite chk_dec_fits by lia. cbn [rbind]. unfold c_trunc, dtrunc.
  rewrite chop_trunc_nn by lia. assert (T : 0 <= (ry * P18 - v) / P18 <= ry).
  { split; [apply Z.div_pos; lia|]. apply Z.div_le_upper_bound; lia. }
  rewrite chk_int_fits; [cbn [rbind]; eauto|]. assert (2 ^ 196 < 2 ^ 256) by reflexivity. lia.
Qed.

(** [ov_of_pool] of PoolModel never falls back to its default values. *)
Theorem pool_view_ok : forall rx ry ps price, 0 < rx < 2 ^ 196 -> 0 < ry < 2 ^ 196 -> 0 < price ->
  exists pp b s, pool_price (Basic rx ry ps) = Ok pp /\ 0 <= pp /\ buy_amount_over (Basic rx ry ps) price = Ok b /\ sell_amount_under (Basic rx ry ps) price = Ok s.
Proof.
  intros rx ry ps price X Y P. destruct (basic_price rx ry ps X ltac:(lia)) as (pp & E & P0 & _). destruct (basic_buy_ok rx ry ps price X Y P) as (b & B).
  destruct (basic_sell_ok rx ry ps price X Y) as (s & S). eauto 10.
Qed.
