(** Proofs for C95. *)
From Coq Require Import ZArith List Lia.
From Verif Require Import Base Dec DecProofs PoolModel PoolProofs SplitSpec.
Import ListNotations.
Local Open Scope Z_scope.

Lemma one_share r ps pc x fee : 0 <= r -> 0 < ps -> 0 <= pc <= ps -> 0 <= fee <= P18 ->
  (pc = ps -> x = r) -> (pc <> ps -> x * P18 * ps <= r * pc * (P18 - fee)) -> x * ps <= r * pc.
Proof.
  intros Hr Hps Hpc Hf E N. pose proof P18_pos. destruct (Z.eq_dec pc ps) as [e|n].
  - rewrite (E e), e. lia.
  - specialize (N n). assert (r * pc * (P18 - fee) <= r * pc * P18) by (apply Z.mul_le_mono_nonneg_l; [nia|lia]). nia.
Qed.

Lemma share_step r ps pc P x X : 0 < ps -> 0 <= pc <= ps -> 0 <= P <= ps - pc -> 0 <= x <= r ->
  x * ps <= r * pc -> X * (ps - pc) <= (r - x) * P -> (pc = ps -> X <= 0) -> (x + X) * ps <= r * (pc + P).
Proof.
  intros Hps Hpc HP Hx A B Z0. destruct (Z.eq_dec pc ps) as [e|n].
  - specialize (Z0 e). subst pc. assert (P = 0) by lia. subst P. nia.
  - assert (D : 0 < ps - pc) by lia.
    assert (M : ((x + X) * ps) * (ps - pc) <= (r * (pc + P)) * (ps - pc)).
    { assert (X * (ps - pc) * ps <= (r - x) * P * ps) by nia.
      (* x ps (ps-pc) + (r-x) P ps <= r (pc+P)(ps-pc)  iff  x ps (ps-pc-P) <= r pc (ps-pc-P) *)
      assert (x * ps * (ps - pc - P) <= r * pc * (ps - pc - P)) by (apply Z.mul_le_mono_nonneg_r; lia).
      nia. }
    nia.
Qed.

Lemma redeem_facts fee rx ry ps pcs X Y : 0 <= fee <= P18 ->
  redeem fee rx ry ps pcs X Y -> 0 <= rx -> 0 <= ry -> 0 <= ps ->
  0 <= total pcs <= ps /\ 0 <= X <= rx /\ 0 <= Y <= ry /\ X * ps <= rx * total pcs /\ Y * ps <= ry * total pcs /\
  (ps = 0 -> X = 0 /\ Y = 0).
Proof.
  intros Hf R. induction R as [rx ry ps|rx ry ps pc pcs x y X Y Hpc Hps E R IH]; intros Hrx Hry Hp.
  - cbn. lia.
  - destruct (withdraw_facts _ _ _ _ _ _ _ Hrx Hry Hps Hpc Hf E) as (A & B & Full & Part).
    destruct IH as (T & HX & HY & SX & SY & Z0); try lia.
    assert (ox : x * ps <= rx * pc). { apply (one_share rx ps pc x fee); auto; intros; [apply Full; auto|apply Part; auto]. }
    assert (oy : y * ps <= ry * pc). { apply (one_share ry ps pc y fee); auto; intros; [apply Full; auto|apply Part; auto]. }
    change (total (pc :: pcs)) with (pc + total pcs).
    split; [lia|]. split; [lia|]. split; [lia|]. split; [|split; [|lia]].
    + apply share_step; auto; try lia.
    + apply share_step; auto; try lia.
Qed.

Lemma redeem_total fee pcs : 0 <= fee <= P18 -> forall rx ry ps, 0 <= rx -> 0 <= ry ->
  Forall (fun pc => 0 < pc) pcs -> total pcs <= ps -> exists X Y, redeem fee rx ry ps pcs X Y.
Proof.
  intros Hf. induction pcs as [|pc pcs IH]; intros rx ry ps Hrx Hry F T.
  - exists 0, 0. constructor.
  - inversion F as [|? ? Hpc F']; subst. change (total (pc :: pcs)) with (pc + total pcs) in T.
    assert (0 <= total pcs). { clear - F'. induction F'; cbn; [lia|]. unfold total in *. lia. }
    assert (Hps : 0 < ps) by lia.
    destruct (withdraw_total rx ry ps pc fee Hps) as (x & y & E).
    assert (L : 0 <= pc <= ps) by lia.
    destruct (withdraw_facts _ _ _ _ _ _ _ Hrx Hry Hps L Hf E) as (A & B & _).
    destruct (IH (rx - x) (ry - y) (ps - pc)) as (X & Y & R); try lia; auto.
    exists (x + X), (y + Y). econstructor; eauto.
Qed.

(** Without a fee, in one go, the payout is within a coin and 10^-18 of the reserve of the total. *)
Lemma redeem_no_fee rx ry ps pcs X Y x y : 0 <= rx < 2 ^ 255 -> 0 <= ry < 2 ^ 255 -> 0 < ps ->
  redeem 0 rx ry ps pcs X Y -> withdraw rx ry ps (total pcs) 0 = Ok (x, y) ->
  P18 * (X - x - 1) < rx + 1 /\ P18 * (Y - y - 1) < ry + 1.
Proof.
  intros Hrx Hry Hps R E. pose proof P18_pos as HP.
  assert (Hf : 0 <= 0 <= P18) by lia.
  destruct (redeem_facts 0 rx ry ps pcs X Y Hf R) as (T & _ & _ & SX & SY & _); try lia.
  destruct (withdraw_lower rx ry ps (total pcs) 0 x y Hrx Hry Hps T Hf E) as (LX & LY).
  rewrite Z.sub_0_r in *.
  assert (G : forall r X x, 0 <= r -> X * ps <= r * total pcs ->
     r * P18 * (total pcs * P18 - ps) < (x + 1) * P18 * P18 * ps -> P18 * (X - x - 1) < r + 1).
  { clear - HP Hps. intros r X x Hr A B. set (P := total pcs) in *.
    assert (r * (P * P18 - ps) < (x + 1) * P18 * ps) by nia.
    assert (X * ps * P18 <= r * P * P18) by nia.
    assert ((P18 * (X - x - 1)) * ps < (r + 1) * ps) by nia. nia. }
  split; eapply G; eauto; lia.
Qed.
