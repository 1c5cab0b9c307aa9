(** Properties C45, C46: store keys and pool coin names. *)
From Verif Require Import Base KeysModel KeysSpec KeysProofs.

(** ** C45: store keys never collide. *)

(** Every entity has a key, and two entities with the same key are the same. *)
Theorem C45_keys_distinct : forall e1 e2, entity_ok e1 -> entity_ok e2 ->
  exists k1 k2, key_of e1 = Some k1 /\ key_of e2 = Some k2 /\ (k1 = k2 <-> e1 = e2).
Proof.
  intros e1 e2 H1 H2. exists (tag e1 :: body e1), (tag e2 :: body e2). rewrite <- !key_shape by assumption. split; [reflexivity|]. split; [reflexivity|]. split.
  - intros E. apply (keys_distinct e1 e2 (tag e1 :: body e1)); [assumption|assumption|apply key_shape; assumption|]. rewrite E. apply key_shape. assumption.
  - intros ->. reflexivity.
Qed.
Print Assumptions C45_keys_distinct.

(** Scanning a prefix meets exactly the keys of the entries it is meant to yield. *)
Theorem C45_scans : forall s e, scan_ok s -> entity_ok e ->
  exists p k, scan_prefix s = Some p /\ key_of e = Some k /\ (starts_with p k <-> yields s e).
Proof.
  intros s e Hs He. exists (stag s :: sbody s), (tag e :: body e). rewrite <- scan_shape, <- key_shape by assumption. split; [reflexivity|]. split; [reflexivity|].
  apply scans_exact; auto using scan_shape, key_shape.
Qed.
Print Assumptions C45_scans.

(** Parsing an index key gives back what built it, as long as the offsets fit a byte.  Not covered: longer
    names, see [C45_parse_refuted]. *)
Theorem C45_parse_partial : forall e, entity_ok e -> short e -> exists k, key_of e = Some k /\ reads_back e k.
Proof.
  intros e He Hs. exists (tag e :: body e). split; [apply key_shape; assumption|].
  destruct e; cbn [reads_back tag body entity_ok short] in *; try exact Logic.I; repeat match goal with H : _ /\ _ |- _ => destruct H end.
  - apply parse_pairs_ok; assumption.
  - apply parse_pools_ok; assumption.
  - apply parse_index_ok; assumption.
  - apply parse_index_ok; assumption.
  - apply parse_index_ok; assumption.
  - apply parse_num_mm_ok; assumption.
Qed.
Print Assumptions C45_parse_partial.

(** For two valid denominations whose lengths add up to 253 or more the parser panics on the key of every pair. *)
Theorem C45_parse_refuted : forall a b id, denom_length a -> denom_length b -> id_ok id -> 253 <= Z.of_nat (length a) + Z.of_nat (length b) ->
  exists k, key_of (PairLookup a b id) = Some k /\ parse_pairs_by_denoms k = None.
Proof.
  intros a b id Ha Hb Hi L. unfold denom_length in *. exists (167 :: nm a ++ nm b ++ be8 id).
  assert (Na : name_ok a) by (split; [intros ->; cbn in Ha; lia|lia]). assert (Nb : name_ok b) by (split; [intros ->; cbn in Hb; lia|lia]).
  split; [apply (key_shape (PairLookup a b id)); cbn; auto|]. unfold parse_pairs_by_denoms. cbn [has_prefix PairsByDenomsIndexKeyPrefix].
  change (167 =? 167) with true. cbn [andb]. set (k := 167 :: nm a ++ nm b ++ be8 id). set (la := Z.of_nat (length a)) in *. set (lb := Z.of_nat (length b)) in *.
  assert (E1 : byte_at k 1 = Some la) by reflexivity. rewrite E1. cbn [obind].
  assert (E3 : byte_at k (u8 (2 + la)) = Some lb).
  { rewrite u8_small by lia. replace k with ((167 :: nm a) ++ lb :: b ++ be8 id) by reflexivity. apply byte_mid. cbn [length nm]. lia. }
  destruct (slice k 2 (u8 (2 + la))); cbn [obind]; [|reflexivity]. rewrite E3. cbn [obind].
  assert (E5 : slice k (u8 (3 + la)) (u8 (3 + la + lb)) = None).
  { unfold slice. rewrite (u8_small (3 + la)) by lia. replace (u8 (3 + la + lb)) with (3 + la + lb - 256).
    2:{ unfold u8. apply (Z.mod_unique_pos _ _ 1); lia. }
    destruct (Z.leb_spec (3 + la) (3 + la + lb - 256)); [lia|reflexivity]. }
  rewrite E5. reflexivity.
Qed.
Print Assumptions C45_parse_refuted.

(** Iterating a prefix visits entries by increasing ids: pairs, pools, the orders of a pair, the requests of a pool, ... *)
Theorem C45_iteration_order : forall e1 e2 k1 k2, entity_ok e1 -> entity_ok e2 -> key_of e1 = Some k1 -> key_of e2 = Some k2 ->
  match e1, e2 with
  | Pair i, Pair j | Pool i, Pool j => lex_lt k1 k2 <-> i < j
  | Order p i, Order q j | Deposit p i, Deposit q j | Withdraw p i, Withdraw q j | PoolOfPair p i, PoolOfPair q j =>
      lex_lt k1 k2 <-> p < q \/ p = q /\ i < j
  | OrderOf a p i, OrderOf b q j | DepositOf a p i, DepositOf b q j | WithdrawOf a p i, WithdrawOf b q j =>
      a = b -> (lex_lt k1 k2 <-> p < q \/ p = q /\ i < j)
  | NumMM a p, NumMM b q => a = b -> (lex_lt k1 k2 <-> p < q)
  | PairLookup a b i, PairLookup c d j => a = c -> b = d -> (lex_lt k1 k2 <-> i < j)
  | _, _ => True
  end.
Proof.
  assert (T : forall t x y, lex_lt (t :: x) (t :: y) <-> lex_lt x y) by (intros t x y; cbn; split; [intros [H|[_ H]]; [lia|assumption]|auto]).
  assert (N : forall a x y, lex_lt (nm a ++ x) (nm a ++ y) <-> lex_lt x y).
  { intros a x y. rewrite lex_app by reflexivity. split; [|auto]. intros [H|[_ H]]; [|assumption]. exfalso. revert H. generalize (nm a). clear. intros l.
    induction l as [|c l IH]; cbn; [auto|intros [H|[_ H]]; [lia|auto]]. }
  intros e1 e2 k1 k2 H1 H2. rewrite (key_shape e1 H1), (key_shape e2 H2). intros E1 E2. injection E1 as <-. injection E2 as <-.
  destruct e1, e2; try exact Logic.I; cbn [tag body entity_ok] in *; repeat match goal with H : _ /\ _ |- _ => destruct H end; intros; subst;
  rewrite T, ?N, ?be8_order, ?be8_order0 by assumption; reflexivity.
Qed.
Print Assumptions C45_iteration_order.

(** A store with two users, two denominations and large ids. *)
Example C45_example :
  let alice := repeat 7 20 in let bob := repeat 7 19 in let atom := [97; 116; 111; 109] in let usd := [117; 115; 100] in
  let big := 2 ^ 64 - 1 in
  entity_ok (PairLookup atom usd big) /\ short (PairLookup atom usd big) /\
  entity_ok (OrderOf alice 1 big) /\ entity_ok (OrderOf bob 1 big) /\ scan_ok (OrdersBy alice) /\
  yields (OrdersBy alice) (OrderOf alice 1 big) /\ ~ yields (OrdersBy alice) (OrderOf bob 1 big) /\
  key_of (PairLookup atom usd 258) = Some [167; 4; 97; 116; 111; 109; 3; 117; 115; 100; 0; 0; 0; 0; 0; 0; 1; 2].
Proof.
  cbv zeta. repeat match goal with |- _ /\ _ => split end; cbn [entity_ok scan_ok yields short]; unfold name_ok, id_ok;
  repeat match goal with |- _ /\ _ => split end; try (vm_compute; reflexivity); try (vm_compute; discriminate); try (intros E; vm_compute in E; discriminate E).
Qed.
Example C45_refuted_example : let a := repeat 97 128 in let b := repeat 98 128 in
  denom_length a /\ denom_length b /\ id_ok 1 /\ 253 <= Z.of_nat (length a) + Z.of_nat (length b) /\ parse_pairs_by_denoms (pairs_by_denoms_key a b 1) = None.
Proof. cbv zeta. unfold denom_length, id_ok. repeat match goal with |- _ /\ _ => split end; vm_compute; (reflexivity || discriminate). Qed.

(** ** C46: pool coin denominations round trip. *)

(** The name of the pool coin of a pool parses back to the pool id ... *)
Theorem C46_parses : forall id, 1 <= id < 2 ^ 64 -> parse_pool_coin_denom (pool_coin_denom id) = Some id.
Proof. exact pool_denom_parses. Qed.
Print Assumptions C46_parses.
(** ... the name of no other string does, and ids are positive ... *)
Theorem C46_canonical : forall s id, parse_pool_coin_denom s = Some id <-> 1 <= id < 2 ^ 64 /\ s = pool_coin_denom id.
Proof. intros s id. split; [apply pool_denom_canonical|intros [H ->]; apply pool_denom_parses; assumption]. Qed.
Print Assumptions C46_canonical.
(** ... and distinct pools have distinct pool coins. *)
Theorem C46_injective : forall i j, 1 <= i < 2 ^ 64 -> 1 <= j < 2 ^ 64 -> pool_coin_denom i = pool_coin_denom j -> i = j.
Proof. intros i j Hi Hj E. apply pool_denom_parses in Hi, Hj. rewrite E in Hi. congruence. Qed.
Print Assumptions C46_injective.
(** The name is "pool" followed by the id in decimal: value, digits and no leading zero. *)
Theorem C46_name : forall id, 1 <= id < 2 ^ 64 -> exists c r, pool_coin_denom id = pool_word ++ c :: r /\
  49 <= c <= 57 /\ Forall (fun x => 48 <= x <= 57) r /\ fold_left (fun a x => a * 10 + (x - 48)) (c :: r) 0 = id.
Proof.
  intros id H. unfold pool_coin_denom. assert (P64 : 2 ^ 64 <= 10 ^ Z.of_nat 20) by (vm_compute; discriminate).
  destruct (digits_spec 20 id) as (A & B & C); [lia|lia|]. destruct C as (c & r & E & Hc); [lia|]. exists c, r. rewrite E in *. split; [reflexivity|]. split; [assumption|].
  split; [|exact A]. cbn [forallb] in B. apply andb_true_iff in B. destruct B as [_ B]. apply Forall_forall. intros x Hx. rewrite forallb_forall in B. apply B in Hx.
  unfold is_digit in Hx. apply andb_true_iff in Hx. destruct Hx as [X Y]. apply Z.leb_le in X, Y. lia.
Qed.
Print Assumptions C46_name.
Example C46_example : pool_coin_denom 120 = [112; 111; 111; 108; 49; 50; 48] /\ parse_pool_coin_denom [112; 111; 111; 108; 49; 50; 48] = Some 120 /\
  parse_pool_coin_denom [112; 111; 111; 108; 48; 49] = None /\ parse_pool_coin_denom (pool_word ++ repeat 57 20) = None /\
  parse_pool_coin_denom (pool_coin_denom (2 ^ 64 - 1)) = Some (2 ^ 64 - 1).
Proof. repeat match goal with |- _ /\ _ => split end; vm_compute; reflexivity. Qed.
