(** Property C80: the market clears.  After a match no buy and sell order whose limits cross can both
    still trade, at prices of at least one quote coin. *)
From Verif Require Import Base Dec DecProofs TickModel OrderModel MatchModel MatchSpec OrderProofs MatchProofs MatchTop MatchClear PoolModel KeeperModel KeeperSpec KeeperMicro KeeperHist KeeperClear KeeperExample Props_Keeper5 Props_Cross.

(** Some amount of the order can be traded at its own limit price: it is open, the coins left pay for
    it and it is worth at least one quote coin. *)
Definition can_trade (o : order) : Prop :=
  exists a, 0 < a <= o_open o /\ (o_dir o = Buy -> ceil_value (o_price o) a <= o_offer o - o_paid o) /\ 0 < floor_value (o_price o) a.

Lemma spent_cannot o : wf_order o -> spent o -> ~ can_trade o.
Proof.
  intros W E (a & A & B & C). destruct (matchable_greatest o (o_price o) W ltac:(apply W)) as (_ & G & _). rewrite E in G. assert (X : a <= 0) by (apply G; [split; [lia|exact B]|exact C]). lia.
Qed.

(** One matching around a last price: the orders [h] become [h']. *)
Theorem C80_match : forall iter h last h' mp qd m, is_perm_iter iter -> Forall wf_order h -> P18 <= last -> (forall o, In o h -> o_dir o = Sell -> P18 <= o_price o) ->
  match_book iter h (new_order_book h) last = Some (h', mp, qd, m) ->
  forall i j, (i < length h)%nat -> (j < length h)%nat -> o_dir (get h i) = Buy -> o_dir (get h j) = Sell -> can_trade (get h' i) -> can_trade (get h' j) -> o_price (get h i) < o_price (get h j).
Proof.
  intros iter h last h' mp qd m Hi Hf Hl Hs H i j Li Lj Di Dj Ti Tj. pose proof P18_pos as H18. destruct (Z_lt_le_dec (o_price (get h i)) (o_price (get h j))) as [L|L]; [exact L|exfalso].
  destruct (match_orders_ok iter h last Hi Hf ltac:(lia)) as (h2 & mp2 & qd2 & m2 & tr & E & M & _). rewrite H in E. injection E as <- <- <- <-. destruct M as [T _ _ _ _ _ _ _].
  pose proof (trace_wf _ _ _ T (proj1 (wf_heap_Forall h) Hf)) as W. pose proof (trace_length _ _ _ T) as Ln.
  destruct (match_book_clears iter Hi h last h' mp qd m Hf ltac:(lia) H) with (i := i) (j := j) as [X|X]; try assumption.
  - destruct (price_direction _ _ _); [exact Hl|exact Hs|exact Logic.I].
  - apply (spent_cannot (get h' i)); [apply W; lia|exact X|exact Ti].
  - apply (spent_cannot (get h' j)); [apply W; lia|exact X|exact Tj].
Qed.
Print Assumptions C80_match.

(** One batch of a pair with a last price, pools included.  [b] and [v] are a stored buy and a stored
    sell order, [b'] and [v'] the same orders after the batch, all live.  Their limits do not cross
    any more, or the buy order cannot pay for one more coin, or it came into the batch with less than
    its open amount costs (the rounding of many earlier fills) and bought all it could pay for. *)
Theorem C80_batch : forall Q s s' i pr last lo hi, batch_runs Q s s' -> get_pair s i = Some pr -> pr_last_price pr = Some last ->
  price_limits last (pm_price_ratio (st_params s)) (pm_tick_prec (st_params s)) = Ok (lo, hi) -> P18 <= last -> P18 <= lo ->
  (forall j o, get_order s i j = Some o -> live o = true -> ko_dir o = Sell -> P18 <= ko_price o) ->
  forall jb js b b' v v', get_order s i jb = Some b -> live b = true -> ko_dir b = Buy -> get_order s i js = Some v -> live v = true -> ko_dir v = Sell ->
  get_order s' i jb = Some b' -> live b' = true -> get_order s' i js = Some v' -> live v' = true ->
  ko_price b < ko_price v \/ ko_remaining b' * P18 < ko_price b \/
  (ko_remaining b * P18 < ko_price b * ko_open b /\ ko_open b - ko_open b' = ko_remaining b * P18 / ko_price b).
Proof.
  intros Q s s' i pr last lo hi (R & HB & iter & Hi & HE) Gp El Epl Hl Hlo Hs jb js b b' v v' Gb Lb Db Gv Lv Dv Gb' Lb' Gv' Lv'.
  destruct (Z_lt_le_dec (ko_price b) (ko_price v)) as [L|L]; [left; exact L|right].
  pose proof (Hs js v Gv Lv Dv) as P1. pose proof P18_pos as H18.
  destruct (batch_clears Q iter s s' i pr last lo hi Hi R HB HE Gp El Epl Hl Hlo Hs jb js b b' v v' Gb Lb Db Gv Lv Dv L Gb' Lb' Gv' Lv') as (Ep & [X|[X Y]]).
  - left. rewrite <- Ep. exact X.
  - right. split; [|exact X]. pose proof (Z.div_mod (ko_remaining b * P18) (ko_price b) ltac:(lia)). pose proof (Z.mod_pos_bound (ko_remaining b * P18) (ko_price b) ltac:(lia)). nia.
Qed.
Print Assumptions C80_batch.

(** Three orders around the last price 2: the buy at 2.05 takes the cheaper sell, the rest of it and
    the sell at 2.1 stay. *)
Definition clear1 : list action :=
  [ABegin 5; AMsg (MCreatePair 1 (Coin 1) (Coin 2)); AMsg (MLimitOrder 1 1 Sell (Coin 1) 100000 (Coin 2) (2 * P18) 100000 3600);
   AMsg (MLimitOrder 2 1 Buy (Coin 2) 100000 (Coin 1) (2 * P18) 50000 3600); AEnd; ABegin 15;
   AMsg (MLimitOrder 2 1 Buy (Coin 2) 150000 (Coin 1) (P18 * 205 / 100) 70000 3600); AMsg (MLimitOrder 1 1 Sell (Coin 1) 30000 (Coin 2) (P18 * 21 / 10) 30000 3600)].
Definition clear_check (s : state) : bool :=
  match get_pair s 1, end_block idl s with
  | Some pr, Some s' =>
      match pr_last_price pr, get_order s 1 3, get_order s 1 4, get_order s' 1 3, get_order s' 1 4 with
      | Some l, Some b, Some v, Some b', Some v' =>
          match price_limits l (pm_price_ratio (st_params s)) (pm_tick_prec (st_params s)) with Ok (lo, hi) => P18 <=? lo | _ => false end &&
          forallb (fun kv => match ko_dir (snd kv) with Sell => P18 <=? ko_price (snd kv) | Buy => true end) (st_orders s) &&
          live b && live v && live b' && live v' && (ko_open b' <? ko_open b) && (P18 <=? l) &&
          match ko_dir b, ko_dir v with Buy, Sell => true | _, _ => false end
      | _, _, _, _, _ => false
      end
  | _, _ => false
  end.
Example C80_batch_example : (exists s', batch_runs any_params (snd (after 1 clear1)) s') /\ clear_check (snd (after 1 clear1)) = true.
Proof.
  split; [|vm_compute; reflexivity]. destruct (end_block idl (snd (after 1 clear1))) as [s'|] eqn:E; [|exfalso; revert E; vm_compute; discriminate].
  exists s'. split; [apply after_in_block; [reflexivity|vm_compute; reflexivity]|]. split; [vm_compute; reflexivity|]. exists idl. split; [exact idl_perm|exact E].
Qed.

(** The engine on three orders: 5 of the buy stay and the sell above it stays. *)
Example C80_match_example : let h := [mk Buy (3 * P18) 15 1 1; mk Sell (2 * P18) 10 1 2; mk Sell (4 * P18) 7 1 3] in
  match match_book idl h (new_order_book h) (2 * P18) with Some (h', _, _, true) => o_open (get h' 0) = 5 /\ o_open (get h' 1) = 0 /\ o_open (get h' 2) = 7 | _ => False end.
Proof. vm_compute. auto. Qed.
(** Below a price of one the claim is false: two coins at 0.5 are worth one quote coin, at the last
    price 0.34 they are worth less, so they are not traded and both orders stay. *)
Example C80_below_one : let h := [mk Buy (P18 / 2) 2 1 1; mk Sell (P18 * 34 / 100) 10 1 2] in
  match match_book idl h (new_order_book h) (P18 * 34 / 100) with Some (h', _, _, false) => h' = h | _ => False end /\ can_trade (get h 0) /\ can_trade (get h 1).
Proof.
  split; [vm_compute; reflexivity|]. split; [exists 2|exists 10]; vm_compute; intuition discriminate.
Qed.
