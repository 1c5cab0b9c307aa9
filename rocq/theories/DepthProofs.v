From Verif Require Import Base Dec DecProofs TickModel TickSpec TickProofs OrderModel MatchModel MatchSpec KeyedProofs OrderProofs MatchProofs MatchLoopProofs MatchBookProofs MatchTop ViewProofs DepthModel DepthSpec.
From Coq Require Import Sorted.

(** ** the row loop, for either side *)
Fixpoint rows_loop (fuel : nat) (cum : Z -> Z) (more : Z -> bool) (limit u n cur acc : Z) : option (list (Z * Z)) :=
  match fuel with
  | O => None
  | S f =>
      if (0 <? n) && (cur <=? limit) then
        let amt := cum cur - acc in
        let last := negb (more cur) in
        if 0 <? amt then
          if last then Some [(cur, amt)]
          else option_map (cons (cur, amt)) (rows_loop f cum more limit u (n - 1) (cur + u) (acc + amt))
        else if last then Some [] else rows_loop f cum more limit u n (cur + u) acc
      else Some []
  end.

Lemma sell_rows_loop fuel v hi u : forall n cur acc, sell_rows fuel v hi u n cur acc =
  rows_loop fuel (fun k => view_sell_under v k true) (fun k => 0 <? view_sell_over v k false) hi u n cur acc.
Proof.
  induction fuel as [|f IH]; intros n cur acc; [reflexivity|]. cbn [sell_rows rows_loop]. rewrite !IH. reflexivity.
Qed.
Definition neg_row (r : Z * Z) : Z * Z := (- fst r, snd r).
Lemma buy_rows_loop fuel v lo u : forall n cur acc, option_map (map neg_row) (buy_rows fuel v lo u n cur acc) =
  rows_loop fuel (fun k => view_buy_over v (- k) true) (fun k => 0 <? view_buy_under v (- k) false) (- Z.max lo 0) u n (- cur) acc.
Proof.
  induction fuel as [|f IH]; intros n cur acc; [reflexivity|]. cbn [buy_rows rows_loop]. rewrite !Z.opp_involutive.
  replace ((lo <=? cur) && (0 <=? cur)) with (- cur <=? - Z.max lo 0).
  2:{ destruct (Z.leb_spec lo cur), (Z.leb_spec 0 cur); cbn [andb]; [apply Z.leb_le|apply Z.leb_gt|apply Z.leb_gt|apply Z.leb_gt]; lia. }
  rewrite <- andb_assoc. replace ((lo <=? cur) && (0 <=? cur)) with (- cur <=? - Z.max lo 0).
  2:{ destruct (Z.leb_spec lo cur), (Z.leb_spec 0 cur); cbn [andb]; [apply Z.leb_le|apply Z.leb_gt|apply Z.leb_gt|apply Z.leb_gt]; lia. }
  destruct ((0 <? n) && (- cur <=? - Z.max lo 0)); [|reflexivity]. cbv zeta. replace (- cur + u) with (- (cur - u)) by lia.
  destruct (0 <? view_buy_over v cur true - acc), (negb (0 <? view_buy_under v cur false)); try reflexivity.
  - rewrite <- IH. destruct (buy_rows f v lo u (n - 1) (cur - u) _); reflexivity.
  - rewrite <- IH. reflexivity.
Qed.

Section Rows.
  Variables (cum : Z -> Z) (more : Z -> bool) (tot limit u : Z).
  Hypothesis Hu : 0 < u.
  Hypothesis Hmono : forall p q, p <= q -> cum p <= cum q.
  Hypothesis Htot : forall p, cum p <= tot.
  Hypothesis Hmore : forall p, more p = (0 <? tot - cum p).

  Lemma mod_next k : k mod u = 0 -> (k + u) mod u = 0.
  Proof. intros H. replace (k + u) with (k + 1 * u) by lia. rewrite Z_mod_plus_full. assumption. Qed.
  Lemma mod_gap k l : k mod u = 0 -> l mod u = 0 -> k < l -> k + u <= l.
  Proof.
    intros Hk Hl H. apply Z.mod_divide in Hk, Hl; try lia. destruct Hk as [a ->], Hl as [b ->]. assert (a < b) by nia. nia.
  Qed.

  Lemma rows_loop_spec fuel : forall n cur acc rows, cur mod u = 0 -> acc = cum (cur - u) ->
    rows_loop fuel cum more limit u n cur acc = Some rows ->
    Z.of_nat (length rows) <= Z.max 0 n /\
    (forall k a, In (k, a) rows -> cur <= k /\ k mod u = 0 /\ k <= limit /\ 0 < a /\ a = cum k - cum (k - u)) /\
    (forall i j k a l b, (i < j)%nat -> nth_error rows i = Some (k, a) -> nth_error rows j = Some (l, b) -> k < l) /\
    (forall k, cur <= k -> k mod u = 0 -> k <= limit -> 0 < cum k - cum (k - u) ->
      In (k, cum k - cum (k - u)) rows \/ Z.of_nat (length rows) = Z.max 0 n /\ forall l b, In (l, b) rows -> l < k).
  Proof.
    induction fuel as [|f IH]; intros n cur acc rows Hc Ha E; [discriminate E|]. cbn [rows_loop] in E.
    destruct (Z.ltb_spec 0 n) as [Hn|Hn]; cbn [andb] in E.
    2:{ injection E as <-. cbn [length]. split; [lia|]. split; [intros k a []|]. split; [intros i j k a l b _ H; destruct i; discriminate H|]. intros k _ _ _ _. right. split; [lia|intros l b []]. }
    destruct (Z.leb_spec cur limit) as [Hl|Hl].
    2:{ injection E as <-. cbn [length]. split; [lia|]. split; [intros k a []|]. split; [intros i j k a l b _ H; destruct i; discriminate H|]. intros k X _ Y. lia. }
    cbv zeta in E. assert (Hlast : more cur = false -> forall k, cur < k -> k mod u = 0 -> cum k - cum (k - u) <= 0).
    { intros M k X Xm. rewrite Hmore in M. apply Z.ltb_ge in M. pose proof (mod_gap cur k Hc Xm X). pose proof (Hmono cur (k - u)). pose proof (Htot k). lia. }
    pose proof (Hmono (cur - u) cur ltac:(lia)) as Hge.
    destruct (Z.ltb_spec 0 (cum cur - acc)) as [Hp|Hp].
    - assert (Hrow : 0 < cum cur - acc /\ cum cur - acc = cum cur - cum (cur - u)) by lia.
      destruct (more cur) eqn:M; cbn [negb] in E.
      + destruct (rows_loop f cum more limit u (n - 1) (cur + u) (acc + (cum cur - acc))) as [r|] eqn:E1; [|discriminate E]. cbn [option_map] in E. injection E as <-.
        destruct (IH (n - 1) (cur + u) (acc + (cum cur - acc)) r (mod_next cur Hc) ltac:(replace (cur + u - u) with cur by lia; lia) E1) as (A & B & C & D). cbn [length].
        split; [lia|]. split.
        { intros k a [X|X]; [injection X as <- <-|]; [repeat (split; [lia || assumption|]); lia|]. destruct (B k a X) as (? & ? & ? & ? & ?). repeat (split; [lia || assumption|]). assumption. }
        split.
        { intros i j k a l b Hij X Y. destruct j as [|j]; [lia|]. cbn [nth_error] in Y. destruct i as [|i].
          - cbn [nth_error] in X. injection X as <- <-. apply nth_error_In in Y. apply B in Y. lia.
          - cbn [nth_error] in X. apply (C i j k a l b); [lia|assumption|assumption]. }
        intros k X Xm Xl Xp. destruct (Z.eq_dec k cur) as [->|Ne]; [left; left; f_equal; lia|].
        pose proof (mod_gap cur k Hc Xm ltac:(lia)). destruct (D k ltac:(lia) Xm Xl Xp) as [I|[L1 L2]]; [left; right; assumption|]. right. split; [lia|].
        intros l b [I|I]; [injection I as <- <-; lia|eauto].
      + injection E as <-. cbn [length]. split; [lia|]. split; [intros k a [X|[]]; injection X as <- <-; repeat (split; [lia || assumption|]); lia|].
        split; [intros i j k a l b Hij X Y; destruct j as [|[|j]]; [lia|discriminate Y|discriminate Y]|].
        intros k X Xm Xl Xp. destruct (Z.eq_dec k cur) as [->|Ne]; [left; left; f_equal; lia|]. specialize (Hlast eq_refl k ltac:(lia) Xm). lia.
    - assert (Hz : cum cur = acc) by lia. destruct (more cur) eqn:M; cbn [negb] in E.
      + destruct (IH n (cur + u) acc rows (mod_next cur Hc) ltac:(replace (cur + u - u) with cur by lia; lia) E) as (A & B & C & D).
        split; [assumption|]. split; [intros k a X; destruct (B k a X) as (? & ? & ? & ? & ?); repeat (split; [lia || assumption|]); assumption|]. split; [assumption|].
        intros k X Xm Xl Xp. destruct (Z.eq_dec k cur) as [->|Ne]; [lia|]. pose proof (mod_gap cur k Hc Xm ltac:(lia)). apply D; [lia|assumption|assumption|assumption].
      + injection E as <-. cbn [length]. split; [lia|]. split; [intros k a []|]. split; [intros i j k a l b _ H; destruct i; discriminate H|].
        intros k X Xm Xl Xp. destruct (Z.eq_dec k cur) as [->|Ne]; [lia|]. specialize (Hlast eq_refl k ltac:(lia) Xm). lia.
  Qed.

  Lemma rows_unit fuel n cur rows : cur mod u = 0 -> (forall p, 0 <= cum p) -> cum (cur - u) = 0 ->
    rows_loop fuel cum more limit u n cur 0 = Some rows -> unit_rows cum limit u n rows.
  Proof.
    intros Hc Hn H0 E. destruct (rows_loop_spec fuel n cur 0 rows Hc ltac:(lia) E) as (A & B & C & D). split; [assumption| |assumption|].
    - intros k a X. destruct (B k a X) as (_ & X1 & X2 & X3 & X4). auto.
    - intros k Xm Xl Xp. apply D; auto. destruct (Z_lt_le_dec k cur) as [L|]; [|lia]. pose proof (mod_gap k cur Xm Hc L). pose proof (Hmono k (cur - u)). pose proof (Hn (k - u)). lia.
  Qed.

  Lemma rows_loop_stops fuel : forall n cur acc, limit - cur < u * (Z.of_nat fuel - 1) -> (0 < fuel)%nat -> exists rows, rows_loop fuel cum more limit u n cur acc = Some rows.
  Proof.
    induction fuel as [|f IH]; intros n cur acc H Hf; [lia|]. cbn [rows_loop]. destruct (0 <? n); cbn [andb]; [|eauto].
    destruct (Z.leb_spec cur limit) as [Hl|]; [|eauto]. cbv zeta.
    assert (Hf' : (0 < f)%nat) by (destruct f; [cbn in H; lia|lia]). rewrite Nat2Z.inj_succ in H.
    destruct (0 <? cum cur - acc), (negb (more cur)); try (eexists; reflexivity).
    - destruct (IH (n - 1) (cur + u) (acc + (cum cur - acc))) as [r ->]; [nia|assumption|]. eexists. reflexivity.
    - apply IH; [nia|assumption].
  Qed.
End Rows.

(** ** accumulated sums *)
Definition cumul (l : acc_sums) (f : Z -> bool) : Z :=
  let i := go_search (lenZ l) (fun i => f (fst (nth_acc l i))) in if i =? 0 then 0 else snd (nth_acc l (i - 1)).

Lemma sub_sums_len m : forall l k, lenZ (sub_sums k m l) = lenZ l.
Proof. unfold lenZ. induction l as [|[p s] l IH]; intros k; [reflexivity|]. cbn [sub_sums length]. specialize (IH (k - 1)). lia. Qed.
Lemma sub_sums_nth m : forall l k i, 0 <= i < lenZ l ->
  nth_acc (sub_sums k m l) i = (fst (nth_acc l i), if i <? k then 0 else snd (nth_acc l i) - m).
Proof.
  unfold lenZ, nth_acc. induction l as [|[p s] l IH]; intros k i Hi; [cbn in Hi; lia|]. cbn [sub_sums length] in *.
  destruct (Z.eq_dec i 0) as [->|Ne]; [reflexivity|]. replace (Z.to_nat i) with (S (Z.to_nat (i - 1))) by lia. cbn [nth]. rewrite IH by lia.
  f_equal. destruct (Z.ltb_spec (i - 1) (k - 1)), (Z.ltb_spec i k); try lia; reflexivity.
Qed.
Lemma lenZ_nonneg {A} (l : list A) : 0 <= lenZ l. Proof. unfold lenZ. lia. Qed.

Lemma cumul_sub l k m f : 0 <= m ->
  (forall i, 0 <= i < lenZ l -> i < k -> snd (nth_acc l i) <= m) -> (forall i, 0 <= i < lenZ l -> k <= i -> m <= snd (nth_acc l i)) ->
  cumul (sub_sums k m l) f = Z.max 0 (cumul l f - m).
Proof.
  intros Hm H1 H2. unfold cumul. rewrite sub_sums_len.
  rewrite (search_ext (lenZ l) (fun i => f (fst (nth_acc (sub_sums k m l) i))) (fun i => f (fst (nth_acc l i)))).
  2:{ apply lenZ_nonneg. } 2:{ intros i Hi. rewrite sub_sums_nth by assumption. reflexivity. }
  destruct (go_search_spec (lenZ l) (fun i => f (fst (nth_acc l i))) (lenZ_nonneg l)) as (A & _ & _).
  cbv zeta. set (r := go_search (lenZ l) (fun i => f (fst (nth_acc l i)))) in *. destruct (Z.eqb_spec r 0); [lia|].
  rewrite sub_sums_nth by lia. cbn [snd]. destruct (Z.ltb_spec (r - 1) k); [specialize (H1 (r - 1))|specialize (H2 (r - 1))]; lia.
Qed.

(** prices strictly ordered, sums growing *)
Definition sums_ok (inc : bool) (l : acc_sums) : Prop :=
  (forall i j, 0 <= i < j -> j < lenZ l -> if inc then fst (nth_acc l i) < fst (nth_acc l j) else fst (nth_acc l j) < fst (nth_acc l i)) /\
  (forall i j, 0 <= i < j -> j < lenZ l -> snd (nth_acc l i) <= snd (nth_acc l j)) /\
  (forall i, 0 <= i < lenZ l -> 0 <= snd (nth_acc l i)).
(** the sum up to key [p], and strictly beyond it *)
Definition past (inc incl : bool) (p x : Z) : bool :=
  if inc then (if incl then p <? x else p <=? x) else (if incl then x <? p else x <=? p).

Lemma past_mono inc incl p l : sums_ok inc l -> forall i j, 0 <= i <= j -> j < lenZ l ->
  past inc incl p (fst (nth_acc l i)) = true -> past inc incl p (fst (nth_acc l j)) = true.
Proof.
  intros (H & _) i j Hi Hj. destruct (Z.eq_dec i j) as [->|Ne]; [auto|]. specialize (H i j ltac:(lia) Hj). unfold past.
  destruct inc, incl; intros X; first [apply Z.ltb_lt in X; apply Z.ltb_lt|apply Z.leb_le in X; apply Z.leb_le]; lia.
Qed.

(** the sum at an entry is the sum up to its price *)
Lemma cumul_entry inc l i : sums_ok inc l -> 0 <= i < lenZ l -> cumul l (past inc true (fst (nth_acc l i))) = snd (nth_acc l i).
Proof.
  intros Ho Hi. unfold cumul.
  destruct (go_search_mono (lenZ l) (fun j => past inc true (fst (nth_acc l i)) (fst (nth_acc l j))) (lenZ_nonneg l)) as (A & B & C).
  { intros j k. apply past_mono. assumption. }
  cbv zeta in *. set (r := go_search _ _) in *.
  assert (r = i + 1) as ->; [|destruct (Z.eqb_spec (i + 1) 0); [lia|]; replace (i + 1 - 1) with i by lia; reflexivity].
  destruct Ho as (Ho & _). destruct (Z_lt_le_dec i r) as [L|L].
  - destruct (Z_lt_le_dec (i + 1) r) as [L2|]; [|lia]. specialize (B (i + 1) ltac:(lia)). specialize (Ho i (i + 1) ltac:(lia) ltac:(lia)).
    unfold past in B. destruct inc; apply Z.ltb_ge in B; lia.
  - specialize (C i ltac:(lia)). unfold past in C. destruct inc; apply Z.ltb_lt in C; lia.
Qed.
(** the sum up to any price is 0 before the first entry and otherwise the sum of the last entry not past it *)
Lemma cumul_cases inc l p : sums_ok inc l ->
  (cumul l (past inc true p) = 0 /\ forall i, 0 <= i < lenZ l -> past inc true p (fst (nth_acc l i)) = true) \/
  exists i, 0 <= i < lenZ l /\ cumul l (past inc true p) = snd (nth_acc l i) /\ past inc true p (fst (nth_acc l i)) = false /\
    forall j, i < j < lenZ l -> past inc true p (fst (nth_acc l j)) = true.
Proof.
  intros Ho. unfold cumul.
  destruct (go_search_mono (lenZ l) (fun j => past inc true p (fst (nth_acc l j))) (lenZ_nonneg l)) as (A & B & C).
  { intros j k. apply past_mono. assumption. }
  cbv zeta in *. set (r := go_search _ _) in *. destruct (Z.eqb_spec r 0) as [E|Ne].
  - left. split; [reflexivity|]. intros i Hi. apply C. lia.
  - right. exists (r - 1). split; [lia|]. split; [reflexivity|]. split; [apply B; lia|]. intros j Hj. apply C. lia.
Qed.

(** the first price with a positive sum *)
Lemma first_positive_spec inc l : sums_ok inc l ->
  match first_positive l with
  | None => forall i, 0 <= i < lenZ l -> snd (nth_acc l i) = 0
  | Some x => exists i, 0 <= i < lenZ l /\ x = fst (nth_acc l i) /\ 0 < snd (nth_acc l i) /\ forall j, 0 <= j < i -> snd (nth_acc l j) = 0
  end.
Proof.
  intros (H1 & H2 & H3). unfold first_positive.
  destruct (go_search_mono (lenZ l) (fun i => 0 <? snd (nth_acc l i)) (lenZ_nonneg l)) as (A & B & C).
  { intros i j Hi Hj X. apply Z.ltb_lt in X. apply Z.ltb_lt. destruct (Z.eq_dec i j) as [->|Ne]; [assumption|]. specialize (H2 i j ltac:(lia) Hj). lia. }
  cbv zeta in *. set (r := go_search _ _) in *. destruct (Z.leb_spec (lenZ l) r).
  - intros i Hi. specialize (B i ltac:(lia)). apply Z.ltb_ge in B. specialize (H3 i Hi). lia.
  - exists r. split; [lia|]. split; [reflexivity|]. split; [apply Z.ltb_lt; apply C; lia|]. intros j Hj. specialize (B j ltac:(lia)). apply Z.ltb_ge in B. specialize (H3 j ltac:(lia)). lia.
Qed.
(** positive sums are those at or beyond it *)
Lemma first_positive_cumul inc l p : sums_ok inc l ->
  (0 < cumul l (past inc true p) <-> exists x, first_positive l = Some x /\ past inc true p x = false).
Proof.
  intros Ho. pose proof (first_positive_spec inc l Ho) as F. destruct (first_positive l) as [x|].
  - destruct F as (i & Hi & -> & Hp & Hz). split.
    + intros H. eexists. split; [reflexivity|]. destruct (cumul_cases inc l p Ho) as [[E _]|(j & Hj & E & Pj & _)]; [lia|].
      destruct (Z_lt_le_dec j i) as [L|L]; [rewrite Hz in E by lia; lia|]. destruct (past inc true p (fst (nth_acc l i))) eqn:X; [|reflexivity].
      rewrite (past_mono inc true p l Ho i j) in Pj by (lia || assumption). discriminate Pj.
    + intros (x & E & Px). injection E as <-. destruct (cumul_cases inc l p Ho) as [[_ E]|(j & Hj & E & Pj & Aj)]; [rewrite E in Px by assumption; discriminate Px|].
      rewrite E. destruct (Z_lt_le_dec j i) as [L|L]; [rewrite Aj in Px by lia; discriminate Px|]. destruct (Z.eq_dec i j) as [->|]; [assumption|].
      destruct Ho as (_ & H2 & _). specialize (H2 i j ltac:(lia) ltac:(lia)). lia.
  - split; [|intros (x & E & _); discriminate E]. intros H. destruct (cumul_cases inc l p Ho) as [[E _]|(j & Hj & E & _)]; [lia|]. rewrite F in E by assumption. lia.
Qed.
Lemma cumul_mono inc l p q : sums_ok inc l -> (if inc then p <= q else q <= p) -> 0 <= cumul l (past inc true p) <= cumul l (past inc true q).
Proof.
  intros Ho Hpq. pose proof Ho as (H1 & H2 & H3).
  assert (Hle : forall x, past inc true p x = false -> past inc true q x = false).
  { intros x. unfold past. destruct inc; intros X; apply Z.ltb_ge in X; apply Z.ltb_ge; lia. }
  destruct (cumul_cases inc l p Ho) as [[E _]|(i & Hi & E & Pi & Ai)], (cumul_cases inc l q Ho) as [[F Af]|(j & Hj & F & Pj & Aj)]; rewrite E, F.
  - lia.
  - pose proof (H3 j Hj). lia.
  - specialize (Hle _ Pi). rewrite Af in Hle by assumption. discriminate Hle.
  - pose proof (H3 i Hi). split; [assumption|]. destruct (Z_lt_le_dec j i) as [L|L].
    + specialize (Hle _ Pi). rewrite Aj in Hle by lia. discriminate Hle.
    + destruct (Z.eq_dec i j) as [->|]; [lia|]. apply H2; lia.
Qed.
Lemma cumul_total inc l p : sums_ok inc l -> 0 < lenZ l -> cumul l (past inc true p) <= snd (nth_acc l (lenZ l - 1)).
Proof.
  intros Ho Hl. pose proof Ho as (H1 & H2 & H3). destruct (cumul_cases inc l p Ho) as [[E _]|(i & Hi & E & _)]; rewrite E; [apply H3; lia|].
  destruct (Z.eq_dec i (lenZ l - 1)) as [->|]; [lia|]. apply H2; lia.
Qed.

(** ** the matched view *)
Definition strict_sums (l : acc_sums) : Prop :=
  (forall i j, 0 <= i < j -> j < lenZ l -> snd (nth_acc l i) < snd (nth_acc l j)) /\ forall i, 0 <= i < lenZ l -> 0 < snd (nth_acc l i).
Definition bought (v : view) (p : Z) : Z := cumul (v_buys v) (past false true p).
Definition sold (v : view) (p : Z) : Z := cumul (v_sells v) (past true true p).
Lemma bought_eq v p : view_buy_over v p true = bought v p. Proof. reflexivity. Qed.
Lemma sold_eq v p : view_sell_under v p true = sold v p. Proof. reflexivity. Qed.
Lemma sold_over v p : view_sell_over v p false = snd (nth_acc (v_sells v) (lenZ (v_sells v) - 1)) - sold v p.
Proof. unfold view_sell_over, sold, cumul, past. cbv zeta. destruct (_ =? 0); lia. Qed.
Lemma bought_under v p : view_buy_under v p false = snd (nth_acc (v_buys v) (lenZ (v_buys v) - 1)) - bought v p.
Proof. unfold view_buy_under, bought, cumul, past. cbv zeta. destruct (_ =? 0); lia. Qed.

Definition last_sum (l : acc_sums) : Z := snd (nth_acc l (lenZ l - 1)).
Lemma sub_sums_ok inc l k m : sums_ok inc l ->
  (forall i, 0 <= i < lenZ l -> k <= i -> m <= snd (nth_acc l i)) -> sums_ok inc (sub_sums k m l).
Proof.
  intros (H1 & H2 & H3) Hm. unfold sums_ok. rewrite sub_sums_len. split; [|split].
  - intros i j Hi Hj. rewrite !sub_sums_nth by lia. cbn [fst]. apply H1; assumption.
  - intros i j Hi Hj. rewrite !sub_sums_nth by lia. cbn [snd]. specialize (H2 i j Hi Hj). pose proof (Hm j ltac:(lia)).
    destruct (Z.ltb_spec i k), (Z.ltb_spec j k); lia.
  - intros i Hi. rewrite sub_sums_nth by lia. cbn [snd]. pose proof (Hm i Hi). destruct (Z.ltb_spec i k); lia.
Qed.

Section Match.
  Variable v : view.
  Hypothesis (HB : sums_ok false (v_buys v)) (HS : sums_ok true (v_sells v)) (TB : strict_sums (v_buys v)) (TS : strict_sums (v_sells v)).
  Let nb := lenZ (v_buys v).
  Let ns := lenZ (v_sells v).
  Let bp i := fst (nth_acc (v_buys v) i).
  Let sp i := fst (nth_acc (v_sells v) i).

  Lemma bought_mono p q : p <= q -> 0 <= bought v q <= bought v p.
  Proof. intros H. apply (cumul_mono false); assumption. Qed.
  Lemma sold_mono p q : p <= q -> 0 <= sold v p <= sold v q.
  Proof. intros H. apply (cumul_mono true); assumption. Qed.
  Lemma bought_at i : 0 <= i < nb -> bought v (bp i) = snd (nth_acc (v_buys v) i).
  Proof. intros H. apply (cumul_entry false); assumption. Qed.
  Lemma sold_at i : 0 <= i < ns -> sold v (sp i) = snd (nth_acc (v_sells v) i).
  Proof. intros H. apply (cumul_entry true); assumption. Qed.
  Lemma bp_lt i j : 0 <= i < j -> j < nb -> bp j < bp i.
  Proof. intros Hi Hj. destruct HB as (H & _). apply (H i j); assumption. Qed.
  Lemma sp_lt i j : 0 <= i < j -> j < ns -> sp i < sp j.
  Proof. intros Hi Hj. destruct HS as (H & _). apply (H i j); assumption. Qed.

  Lemma match_spec : exists m, 0 <= m /\ (exists p, m = Z.min (bought v p) (sold v p)) /\ (forall p, Z.min (bought v p) (sold v p) <= m) /\
    sums_ok false (v_buys (view_match v)) /\ sums_ok true (v_sells (view_match v)) /\
    lenZ (v_buys (view_match v)) = nb /\ lenZ (v_sells (view_match v)) = ns /\
    (forall i, 0 <= i < nb -> fst (nth_acc (v_buys (view_match v)) i) = bp i) /\ (forall i, 0 <= i < ns -> fst (nth_acc (v_sells (view_match v)) i) = sp i) /\
    if (0 <? nb) && (0 <? ns) && (m =? last_sum (v_buys v)) && (m =? last_sum (v_sells v)) then
      (forall p, bought (view_match v) p = bought v p) /\ (forall p, sold (view_match v) p = sold v p)
    else
      (forall p, bought (view_match v) p = Z.max 0 (bought v p - m)) /\ (forall p, sold (view_match v) p = Z.max 0 (sold v p - m)).
  Proof.
    assert (Hnb : 0 <= nb) by apply lenZ_nonneg. assert (Hns : 0 <= ns) by apply lenZ_nonneg.
    assert (Bn : forall p, 0 <= bought v p) by (intros p; apply (bought_mono p p); lia).
    assert (Sn : forall p, 0 <= sold v p) by (intros p; apply (sold_mono p p); lia).
    unfold view_match. fold nb ns. cbv zeta.
    destruct ((nb =? 0) || (ns =? 0)) eqn:E0.
    { exists 0. assert (Z0 : forall p, Z.min (bought v p) (sold v p) = 0).
      { intros p. apply orb_true_iff in E0. destruct E0 as [E0|E0]; apply Z.eqb_eq in E0.
        - destruct (cumul_cases false (v_buys v) p HB) as [[E _]|(i & Hi & _)]; [fold (bought v p) in E; specialize (Sn p); lia|fold nb in Hi; lia].
        - destruct (cumul_cases true (v_sells v) p HS) as [[E _]|(i & Hi & _)]; [fold (sold v p) in E; specialize (Bn p); lia|fold ns in Hi; lia]. }
      split; [lia|]. split; [exists 0; rewrite Z0; reflexivity|]. split; [intros p; rewrite Z0; lia|]. repeat (split; [assumption || reflexivity|]).
      replace ((0 <? nb) && (0 <? ns)) with false.
      2:{ symmetry. apply andb_false_iff. apply orb_true_iff in E0. destruct E0 as [E0|E0]; apply Z.eqb_eq in E0; rewrite E0; auto. }
      cbn [andb]. split; intros p; [specialize (Bn p)|specialize (Sn p)]; lia. }
    apply orb_false_iff in E0. destruct E0 as [E1 E2]. apply Z.eqb_neq in E1, E2.
    set (fb := fun i => view_sell_under v (fst (nth_acc (v_buys v) i)) true <? view_buy_over v (fst (nth_acc (v_buys v) i)) true).
    set (fs := fun i => view_buy_over v (fst (nth_acc (v_sells v) i)) true <? view_sell_under v (fst (nth_acc (v_sells v) i)) true).
    assert (Fb : forall i, fb i = (sold v (bp i) <? bought v (bp i))) by reflexivity.
    assert (Fs : forall i, fs i = (bought v (sp i) <? sold v (sp i))) by reflexivity.
    destruct (go_search_mono nb fb Hnb) as (B1 & B2 & B3).
    { intros i j Hi Hj. rewrite !Fb. intros X. apply Z.ltb_lt in X. apply Z.ltb_lt. destruct (Z.eq_dec i j) as [->|]; [assumption|].
      pose proof (bp_lt i j ltac:(lia) Hj). pose proof (bought_mono (bp j) (bp i)). pose proof (sold_mono (bp j) (bp i)). lia. }
    destruct (go_search_mono ns fs Hns) as (S1 & S2 & S3).
    { intros i j Hi Hj. rewrite !Fs. intros X. apply Z.ltb_lt in X. apply Z.ltb_lt. destruct (Z.eq_dec i j) as [->|]; [assumption|].
      pose proof (sp_lt i j ltac:(lia) Hj). pose proof (bought_mono (sp i) (sp j)). pose proof (sold_mono (sp i) (sp j)). lia. }
    cbv zeta in *. set (bi := go_search nb fb) in *. set (si := go_search ns fs) in *. clearbody bi si.
    assert (B2' : forall i, 0 <= i < bi -> bought v (bp i) <= sold v (bp i)) by (intros i Hi; specialize (B2 i Hi); rewrite Fb in B2; apply Z.ltb_ge; assumption).
    assert (B3' : forall i, bi <= i < nb -> sold v (bp i) < bought v (bp i)) by (intros i Hi; specialize (B3 i Hi); rewrite Fb in B3; apply Z.ltb_lt; assumption).
    assert (S2' : forall i, 0 <= i < si -> sold v (sp i) <= bought v (sp i)) by (intros i Hi; specialize (S2 i Hi); rewrite Fs in S2; apply Z.ltb_ge; assumption).
    assert (S3' : forall i, si <= i < ns -> bought v (sp i) < sold v (sp i)) by (intros i Hi; specialize (S3 i Hi); rewrite Fs in S3; apply Z.ltb_lt; assumption).
    clear B2 B3 S2 S3 Fb Fs fb fs.
    assert (Lb : forall p, bought v p <= last_sum (v_buys v)) by (intros p; apply (cumul_total false); [assumption|fold nb; lia]).
    assert (Ls : forall p, sold v p <= last_sum (v_sells v)) by (intros p; apply (cumul_total true); [assumption|fold ns; lia]).
    assert (Eb : bought v (bp (nb - 1)) = last_sum (v_buys v)) by (apply bought_at; lia).
    assert (Es : sold v (sp (ns - 1)) = last_sum (v_sells v)) by (apply sold_at; lia).
    destruct ((bi =? nb) && (si =? ns)) eqn:Efull.
    { apply andb_true_iff in Efull. destruct Efull as [X Y]. apply Z.eqb_eq in X, Y.
      pose proof (B2' (nb - 1) ltac:(lia)) as P1. pose proof (S2' (ns - 1) ltac:(lia)) as P2. pose proof (Ls (bp (nb - 1))). pose proof (Lb (sp (ns - 1))).
      exists (last_sum (v_buys v)). split; [rewrite <- Eb; apply Bn|]. split; [exists (bp (nb - 1)); lia|]. split; [intros p; specialize (Lb p); lia|].
      repeat (split; [assumption || reflexivity|]). replace (last_sum (v_sells v)) with (last_sum (v_buys v)) by lia. rewrite Z.eqb_refl.
      replace (0 <? nb) with true by (symmetry; apply Z.ltb_lt; lia). replace (0 <? ns) with true by (symmetry; apply Z.ltb_lt; lia). cbn [andb]. split; reflexivity. }
    set (m0 := if 0 <? bi then snd (nth_acc (v_buys v) (bi - 1)) else 0).
    set (m := if 0 <? si then Z.max m0 (snd (nth_acc (v_sells v) (si - 1))) else m0).
    assert (M0 : 0 <= m0 <= m).
    { unfold m, m0. destruct (Z.ltb_spec 0 bi), (Z.ltb_spec 0 si); try lia; rewrite <- bought_at by lia; pose proof (Bn (bp (bi - 1))); lia. }
    assert (Mb : 0 < bi -> bought v (bp (bi - 1)) <= m).
    { intros X. apply Z.le_trans with m0; [|lia]. unfold m0. destruct (Z.ltb_spec 0 bi); [|lia]. rewrite bought_at by lia. lia. }
    assert (Ms : 0 < si -> sold v (sp (si - 1)) <= m).
    { intros X. unfold m. destruct (Z.ltb_spec 0 si); [|lia]. rewrite sold_at by lia. lia. }
    assert (Mcase : m = 0 \/ (0 < bi /\ m = bought v (bp (bi - 1))) \/ (0 < si /\ m = sold v (sp (si - 1)))).
    { unfold m, m0. destruct (Z.ltb_spec 0 bi), (Z.ltb_spec 0 si); rewrite <- ?bought_at, <- ?sold_at by lia; try pose proof (Bn (bp (bi - 1))); try pose proof (Sn (sp (si - 1))); lia. }
    assert (Mup : forall p, Z.min (bought v p) (sold v p) <= m).
    { intros p. destruct (Z_le_gt_dec (bought v p) (sold v p)) as [L|L].
      - destruct (cumul_cases false (v_buys v) p HB) as [[E _]|(i & Hi & E & Pi & _)]; fold (bought v p) in E; [lia|]. fold nb in Hi. rewrite <- bought_at in E by assumption.
        unfold past in Pi. apply Z.ltb_ge in Pi. fold (bp i) in Pi. pose proof (sold_mono p (bp i) Pi).
        destruct (Z_lt_le_dec i bi) as [Li|Li]; [|specialize (B3' i ltac:(lia)); lia].
        assert (bought v (bp i) <= bought v (bp (bi - 1))); [|specialize (Mb ltac:(lia)); lia].
        destruct (Z.eq_dec i (bi - 1)) as [->|]; [lia|]. pose proof (bp_lt i (bi - 1) ltac:(lia) ltac:(lia)). apply bought_mono. lia.
      - destruct (cumul_cases true (v_sells v) p HS) as [[E _]|(i & Hi & E & Pi & _)]; fold (sold v p) in E; [lia|]. fold ns in Hi. rewrite <- sold_at in E by assumption.
        unfold past in Pi. apply Z.ltb_ge in Pi. fold (sp i) in Pi. pose proof (bought_mono (sp i) p Pi).
        destruct (Z_lt_le_dec i si) as [Li|Li]; [|specialize (S3' i ltac:(lia)); lia].
        assert (sold v (sp i) <= sold v (sp (si - 1))); [|specialize (Ms ltac:(lia)); lia].
        destruct (Z.eq_dec i (si - 1)) as [->|]; [lia|]. pose proof (sp_lt i (si - 1) ltac:(lia) ltac:(lia)). apply sold_mono. lia. }
    assert (Mat : exists p, m = Z.min (bought v p) (sold v p)).
    { destruct Mcase as [E|[[X E]|[X E]]].
      - exists 0. specialize (Mup 0). pose proof (Bn 0). pose proof (Sn 0). lia.
      - exists (bp (bi - 1)). specialize (B2' (bi - 1) ltac:(lia)). lia.
      - exists (sp (si - 1)). specialize (S2' (si - 1) ltac:(lia)). lia. }
    assert (Kb1 : forall i, 0 <= i < nb -> i < bi -> snd (nth_acc (v_buys v) i) <= m).
    { intros i Hi Li. rewrite <- bought_at by assumption. specialize (Mb ltac:(lia)). destruct (Z.eq_dec i (bi - 1)) as [->|]; [assumption|].
      pose proof (bp_lt i (bi - 1) ltac:(lia) ltac:(lia)). pose proof (bought_mono (bp (bi - 1)) (bp i)). lia. }
    assert (Ks1 : forall i, 0 <= i < ns -> i < si -> snd (nth_acc (v_sells v) i) <= m).
    { intros i Hi Li. rewrite <- sold_at by assumption. specialize (Ms ltac:(lia)). destruct (Z.eq_dec i (si - 1)) as [->|]; [assumption|].
      pose proof (sp_lt i (si - 1) ltac:(lia) ltac:(lia)). pose proof (sold_mono (sp i) (sp (si - 1))). lia. }
    assert (Kb2 : forall i, 0 <= i < nb -> bi <= i -> m <= snd (nth_acc (v_buys v) i)).
    { intros i Hi Li. rewrite <- bought_at by assumption. pose proof (B3' i ltac:(lia)). pose proof (Bn (bp i)). destruct Mcase as [E|[[X E]|[X E]]]; [lia| |].
      - pose proof (bp_lt (bi - 1) i ltac:(lia) ltac:(lia)). pose proof (bought_mono (bp i) (bp (bi - 1))). lia.
      - pose proof (S2' (si - 1) ltac:(lia)). destruct (Z_le_gt_dec (sp (si - 1)) (bp i)) as [L|L]; [pose proof (sold_mono (sp (si - 1)) (bp i)); lia|pose proof (bought_mono (bp i) (sp (si - 1))); lia]. }
    assert (Ks2 : forall i, 0 <= i < ns -> si <= i -> m <= snd (nth_acc (v_sells v) i)).
    { intros i Hi Li. rewrite <- sold_at by assumption. pose proof (S3' i ltac:(lia)). pose proof (Sn (sp i)). destruct Mcase as [E|[[X E]|[X E]]]; [lia| |].
      - pose proof (B2' (bi - 1) ltac:(lia)). destruct (Z_le_gt_dec (sp i) (bp (bi - 1))) as [L|L]; [pose proof (bought_mono (sp i) (bp (bi - 1))); lia|pose proof (sold_mono (bp (bi - 1)) (sp i)); lia].
      - pose proof (sp_lt (si - 1) i ltac:(lia) ltac:(lia)). pose proof (sold_mono (sp (si - 1)) (sp i)). lia. }
    exists m. split; [lia|]. split; [assumption|]. split; [assumption|]. cbn [v_buys v_sells].
    split; [apply sub_sums_ok; assumption|]. split; [apply sub_sums_ok; assumption|]. split; [apply sub_sums_len|]. split; [apply sub_sums_len|].
    split; [intros i Hi; rewrite sub_sums_nth by assumption; reflexivity|]. split; [intros i Hi; rewrite sub_sums_nth by assumption; reflexivity|].
    replace ((0 <? nb) && (0 <? ns) && (m =? last_sum (v_buys v)) && (m =? last_sum (v_sells v))) with false.
    2:{ symmetry. destruct (Z.eqb_spec m (last_sum (v_buys v))) as [X|]; [|rewrite andb_false_r; reflexivity]. destruct (Z.eqb_spec m (last_sum (v_sells v))) as [Y|]; [|rewrite andb_false_r; reflexivity]. exfalso.
      destruct Mat as [p Mp].
      assert (Pb : p <= bp (nb - 1)).
      { destruct (cumul_cases false (v_buys v) p HB) as [[E _]|(i & Hi & E & Pi & _)]; fold (bought v p) in E.
        - destruct TB as [_ T]. specialize (T (nb - 1) ltac:(fold nb; lia)). fold nb in T. change (snd (nth_acc (v_buys v) (nb - 1))) with (last_sum (v_buys v)) in T. lia.
        - fold nb in Hi. unfold past in Pi. apply Z.ltb_ge in Pi. fold (bp i) in Pi. destruct (Z.eq_dec i (nb - 1)) as [->|]; [assumption|].
          destruct TB as [T _]. specialize (T i (nb - 1) ltac:(lia) ltac:(fold nb; lia)). change (snd (nth_acc (v_buys v) (nb - 1))) with (last_sum (v_buys v)) in T. lia. }
      assert (Ps : sp (ns - 1) <= p).
      { destruct (cumul_cases true (v_sells v) p HS) as [[E _]|(i & Hi & E & Pi & _)]; fold (sold v p) in E.
        - destruct TS as [_ T]. specialize (T (ns - 1) ltac:(fold ns; lia)). fold ns in T. change (snd (nth_acc (v_sells v) (ns - 1))) with (last_sum (v_sells v)) in T. lia.
        - fold ns in Hi. unfold past in Pi. apply Z.ltb_ge in Pi. fold (sp i) in Pi. destruct (Z.eq_dec i (ns - 1)) as [->|]; [assumption|].
          destruct TS as [T _]. specialize (T i (ns - 1) ltac:(lia) ltac:(fold ns; lia)). change (snd (nth_acc (v_sells v) (ns - 1))) with (last_sum (v_sells v)) in T. lia. }
      pose proof (sold_mono p (bp (nb - 1)) Pb). pose proof (bought_mono (sp (ns - 1)) p Ps). apply andb_false_iff in Efull. destruct Efull as [F|F]; apply Z.eqb_neq in F.
      - specialize (B3' (nb - 1) ltac:(lia)). lia.
      - specialize (S3' (ns - 1) ltac:(lia)). lia. }
    split; intros p; apply cumul_sub; try assumption; lia.
  Qed.
End Match.
