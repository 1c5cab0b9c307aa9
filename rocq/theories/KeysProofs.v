From Verif Require Import Base KeysModel KeysSpec.

Lemma be_length k : forall n, length (be k n) = k.
Proof. induction k as [|k IH]; intros n; [reflexivity|]. cbn [be]. rewrite app_length, IH. cbn. lia. Qed.
Lemma un_app a b : un (a ++ [b]) = un a * 256 + b.
Proof. unfold un. rewrite fold_left_app. reflexivity. Qed.
Lemma un_be k : forall n, 0 <= n < 256 ^ Z.of_nat k -> un (be k n) = n.
Proof.
  induction k as [|k IH]; intros n Hn; [cbn in *; lia|]. cbn [be]. rewrite un_app.
  rewrite Nat2Z.inj_succ, Z.pow_succ_r in Hn by lia. pose proof (Z.div_mod n 256 ltac:(lia)).
  rewrite IH; [lia|]. split; [apply Z.div_pos; lia|apply Z.div_lt_upper_bound; lia].
Qed.
Lemma un_be8 n : id_ok n -> un (be8 n) = n.
Proof. intros H. apply un_be. unfold id_ok in H. change (256 ^ Z.of_nat 8) with (2 ^ 64). assumption. Qed.
Lemma be8_length n : length (be8 n) = 8%nat. Proof. apply be_length. Qed.
Lemma un8_be8 n : id_ok n -> un8 (be8 n) = Some n.
Proof.
  intros H. pose proof (be8_length n) as L. pose proof (un_be8 n H) as U. unfold un8. destruct (be8 n) as [|x l] eqn:E; [discriminate L|].
  rewrite <- E, L in *. change (8 <? 8)%nat with false. cbn match. rewrite firstn_all2 by (rewrite L; lia). rewrite U. reflexivity.
Qed.

Lemma app_eq_length {A} (a b c d : list A) : length a = length c -> a ++ b = c ++ d -> a = c /\ b = d.
Proof.
  revert c. induction a as [|x a IH]; intros [|y c] L E; try discriminate L; [auto|]. cbn in *. injection E as -> E. destruct (IH c ltac:(lia) E) as [-> ->]. auto.
Qed.
Lemma be8_inj n m x y : id_ok n -> id_ok m -> be8 n ++ x = be8 m ++ y -> n = m /\ x = y.
Proof.
  intros Hn Hm E. apply app_eq_length in E; [|rewrite !be8_length; reflexivity]. destruct E as [E ->].
  split; [|reflexivity]. rewrite <- (un_be8 n Hn), <- (un_be8 m Hm), E. reflexivity.
Qed.
Lemma be8_inj0 n m : id_ok n -> id_ok m -> be8 n = be8 m -> n = m.
Proof. intros Hn Hm E. destruct (be8_inj n m [] [] Hn Hm) as [H _]; [rewrite E; reflexivity|exact H]. Qed.
Lemma lp_cons s : name_ok s -> lp s = Z.of_nat (length s) :: s.
Proof. intros [N L]. destruct s as [|c s]; [congruence|]. unfold lp. rewrite Z.mod_small by (split; [lia|lia]). reflexivity. Qed.
Lemma alp_cons s : name_ok s -> alp s = Some (Z.of_nat (length s) :: s).
Proof. intros [N L]. destruct s as [|c s]; [congruence|]. unfold alp. destruct (Z.ltb_spec 255 (Z.of_nat (length (c :: s)))); [lia|reflexivity]. Qed.
Lemma named_inj (a b x y : bytes) : (Z.of_nat (length a) :: a) ++ x = (Z.of_nat (length b) :: b) ++ y -> a = b /\ x = y.
Proof. cbn. intros E. injection E as L E. apply app_eq_length in E; [assumption|lia]. Qed.
Lemma lp_inj a b x y : name_ok a -> name_ok b -> lp a ++ x = lp b ++ y -> a = b /\ x = y.
Proof. intros Ha Hb. rewrite !lp_cons by assumption. apply named_inj. Qed.

Ltac key_simpl := cbn [key_of scan_prefix] in *;
  repeat (unfold pool_by_reserve_key, deposit_index_key, withdraw_index_key, order_index_key, num_mm_key, deposit_index_prefix, withdraw_index_prefix, order_index_prefix,
      pair_key, pair_index_key, pairs_by_denoms_key, pairs_by_denom_prefix, pairs_by_denoms_prefix, pool_key, pools_by_pair_key, pools_by_pair_prefix,
      deposit_key, withdraw_key, order_key, orders_by_pair_prefix in *).

(** the first byte tells the kind *)
Definition tag (e : entity) : Z :=
  match e with LastPairId => 160 | LastPoolId => 161 | Params => 112 | Pair _ => 165 | PairIndex _ _ => 166 | PairLookup _ _ _ => 167
  | Pool _ => 171 | PoolByReserve _ => 172 | PoolOfPair _ _ => 173 | Deposit _ _ => 176 | DepositOf _ _ _ => 180 | Withdraw _ _ => 177
  | WithdrawOf _ _ _ => 181 | Order _ _ => 178 | OrderOf _ _ _ => 179 | NumMM _ _ => 183 end.
(** the rest of the key *)
Definition nm (s : bytes) : bytes := Z.of_nat (length s) :: s.
Definition body (e : entity) : bytes :=
  match e with
  | LastPairId | LastPoolId => []
  | Params => [95; 100; 101; 120]
  | Pair id | Pool id => be8 id
  | PairIndex b q => nm b ++ nm q
  | PairLookup a b id => nm a ++ nm b ++ be8 id
  | PoolByReserve a => nm a
  | PoolOfPair p id | Deposit p id | Withdraw p id | Order p id => be8 p ++ be8 id
  | DepositOf a p id | WithdrawOf a p id | OrderOf a p id => nm a ++ be8 p ++ be8 id
  | NumMM a p => nm a ++ be8 p
  end.
Lemma key_shape e : entity_ok e -> key_of e = Some (tag e :: body e).
Proof.
  destruct e; intros H; cbn [entity_ok] in H; key_simpl; cbn [body tag]; unfold nm;
  repeat match goal with H : _ /\ _ |- _ => destruct H end;
  rewrite ?lp_cons, ?alp_cons by assumption; cbn [omap]; rewrite <- ?app_assoc; reflexivity.
Qed.

Lemma nm_inj a b x y : nm a ++ x = nm b ++ y -> a = b /\ x = y.
Proof. apply named_inj. Qed.
Lemma nm_inj0 a b : nm a = nm b -> a = b.
Proof. intros E. apply (nm_inj a b [] []). rewrite !app_nil_r. assumption. Qed.

Ltac split_keys := repeat match goal with
  | H : _ /\ _ |- _ => destruct H
  | H : nm ?a ++ ?x = nm ?b ++ ?y |- _ => apply nm_inj in H
  | H : nm ?a = nm ?b |- _ => apply nm_inj0 in H
  | H : be8 ?a ++ ?x = be8 ?b ++ ?y |- _ => apply be8_inj in H; [|assumption|assumption]
  | H : be8 ?a = be8 ?b |- _ => apply be8_inj0 in H; [|assumption|assumption]
  end.

Theorem keys_distinct e1 e2 k : entity_ok e1 -> entity_ok e2 -> key_of e1 = Some k -> key_of e2 = Some k -> e1 = e2.
Proof.
  intros H1 H2. rewrite (key_shape e1 H1), (key_shape e2 H2). intros E1 E2. rewrite <- E1 in E2. injection E2 as T B. clear E1.
  destruct e1, e2; cbn [tag] in T; try discriminate T; cbn [body entity_ok] in *; try reflexivity; split_keys; subst; reflexivity.
Qed.

Definition stag (s : scan) : Z :=
  match s with AllPairs => 165 | PairsByDenom _ | PairsByDenoms _ _ => 167 | AllPools => 171 | PoolsByPair _ => 173 | AllDeposits => 176 | DepositsBy _ => 180
  | AllWithdraws => 177 | WithdrawsBy _ => 181 | AllOrders | OrdersByPair _ => 178 | OrdersBy _ => 179 | AllNumMM => 183 end.
Definition sbody (s : scan) : bytes :=
  match s with PairsByDenom a | DepositsBy a | WithdrawsBy a | OrdersBy a => nm a | PairsByDenoms a b => nm a ++ nm b | PoolsByPair p | OrdersByPair p => be8 p | _ => [] end.
Lemma scan_shape s : scan_ok s -> scan_prefix s = Some (stag s :: sbody s).
Proof.
  destruct s; intros H; cbn [scan_ok] in H; key_simpl; cbn [sbody stag]; unfold nm;
  repeat match goal with H : _ /\ _ |- _ => destruct H end;
  rewrite ?lp_cons, ?alp_cons by assumption; cbn [omap]; rewrite <- ?app_assoc; reflexivity.
Qed.

Theorem scans_exact s e p k : scan_ok s -> entity_ok e -> scan_prefix s = Some p -> key_of e = Some k -> (starts_with p k <-> yields s e).
Proof.
  intros Hs He. rewrite (scan_shape s Hs), (key_shape e He). intros E1 E2. injection E1 as <-. injection E2 as <-. split.
  - intros [r E]. cbn [app] in E. injection E as T B.
    destruct s, e; cbn [tag stag] in T; try discriminate T; cbn [body sbody scan_ok entity_ok yields app] in *; try exact I;
    repeat match goal with
    | H : _ /\ _ |- _ => destruct H
    | H : ?l = (_ ++ _) ++ _ |- _ => rewrite <- app_assoc in H
    end; split_keys; repeat split; congruence.
  - intros Y. destruct s, e; cbn [yields] in Y; try contradiction; try (destruct Y); subst; cbn [tag stag body sbody];
    eexists; cbn [app]; f_equal; rewrite <- ?app_assoc; reflexivity.
Qed.

(** ** parsing *)
Lemma slice_mid (a b c : bytes) lo hi : lo = Z.of_nat (length a) -> hi = lo + Z.of_nat (length b) -> slice (a ++ b ++ c) lo hi = Some b.
Proof.
  intros -> ->. unfold slice. rewrite !app_length.
  destruct (Z.leb_spec (Z.of_nat (length a)) (Z.of_nat (length a) + Z.of_nat (length b))); [|lia].
  destruct (Z.leb_spec (Z.of_nat (length a) + Z.of_nat (length b)) (Z.of_nat (length a + (length b + length c)))); [|lia]. cbn [andb].
  replace (Z.to_nat (Z.of_nat (length a) + Z.of_nat (length b) - Z.of_nat (length a))) with (length b) by lia.
  rewrite Nat2Z.id, skipn_app, skipn_all, Nat.sub_diag. cbn [skipn app]. rewrite firstn_app, firstn_all, Nat.sub_diag. cbn. rewrite app_nil_r. reflexivity.
Qed.
Lemma slice_end (a b : bytes) lo : lo = Z.of_nat (length a) -> slice_from (a ++ b) lo = Some b.
Proof.
  intros E. unfold slice_from. rewrite <- (app_nil_r b) at 1. apply slice_mid; [assumption|]. rewrite app_length. lia.
Qed.
Lemma byte_mid (a : bytes) x c i : i = Z.of_nat (length a) -> byte_at (a ++ x :: c) i = Some x.
Proof. intros ->. unfold byte_at. rewrite Nat2Z.id, nth_error_app2, Nat.sub_diag by lia. reflexivity. Qed.
Lemma u8_small n : 0 <= n < 256 -> u8 n = n. Proof. apply Z.mod_small. Qed.

Lemma parse_index_ok t a p id : name_ok a -> id_ok p -> id_ok id -> Z.of_nat (length a) <= 245 ->
  parse_index [t] (t :: nm a ++ be8 p ++ be8 id) = Some (a, p, id).
Proof.
  intros Ha Hp Hi L. unfold parse_index. cbn [has_prefix]. rewrite Z.eqb_refl. cbn [andb]. set (k := t :: nm a ++ be8 p ++ be8 id).
  set (la := Z.of_nat (length a)) in *.
  assert (E1 : byte_at k 1 = Some la) by reflexivity. rewrite E1. cbn [obind].
  rewrite !u8_small by lia.
  assert (E2 : slice k 2 (2 + la) = Some a) by (apply (slice_mid [t; la] a (be8 p ++ be8 id)); reflexivity).
  rewrite E2. cbn [obind].
  assert (E3 : slice k (2 + la) (2 + la + 8) = Some (be8 p)).
  { change k with (([t; la] ++ a) ++ be8 p ++ be8 id). apply slice_mid; rewrite ?be8_length, ?app_length; cbn [length]; lia. }
  rewrite E3. cbn [obind]. rewrite un8_be8 by assumption. cbn [obind].
  assert (E4 : slice_from k (2 + la + 8) = Some (be8 id)).
  { replace k with ((([t; la] ++ a) ++ be8 p) ++ be8 id) by (rewrite <- !app_assoc; reflexivity). apply slice_end. rewrite !app_length, be8_length. cbn [length]. lia. }
  rewrite E4. cbn [obind]. rewrite un8_be8 by assumption. reflexivity.
Qed.

Lemma parse_num_mm_ok a p : name_ok a -> id_ok p -> Z.of_nat (length a) <= 253 ->
  parse_num_mm (183 :: nm a ++ be8 p) = Some (a, p).
Proof.
  intros Ha Hp L. unfold parse_num_mm. cbn [has_prefix NumMMOrdersKeyPrefix]. change (183 =? 183) with true. cbn [andb]. set (k := 183 :: nm a ++ be8 p).
  set (la := Z.of_nat (length a)) in *.
  assert (E1 : byte_at k 1 = Some la) by reflexivity. rewrite E1. cbn [obind].
  rewrite !u8_small by lia.
  assert (E2 : slice k 2 (2 + la) = Some a) by (apply (slice_mid [183; la] a (be8 p)); reflexivity).
  rewrite E2. cbn [obind].
  assert (E4 : slice_from k (2 + la) = Some (be8 p)).
  { replace k with (([183; la] ++ a) ++ be8 p) by (rewrite <- !app_assoc; reflexivity). apply slice_end. rewrite !app_length. cbn [length]. lia. }
  rewrite E4. cbn [obind]. rewrite un8_be8 by assumption. reflexivity.
Qed.

Lemma parse_pools_ok p id : id_ok p -> id_ok id -> parse_pools_by_pair (173 :: be8 p ++ be8 id) = Some id.
Proof.
  intros Hp Hi. unfold parse_pools_by_pair. cbn [has_prefix PoolsByPairIndexKeyPrefix]. change (173 =? 173) with true. cbn [andb].
  assert (E4 : slice_from (173 :: be8 p ++ be8 id) (1 + 8) = Some (be8 id)).
  { change (173 :: be8 p ++ be8 id) with ((173 :: be8 p) ++ be8 id). apply slice_end. cbn [length]. rewrite be8_length. reflexivity. }
  rewrite E4. cbn [obind]. apply un8_be8. assumption.
Qed.

Lemma parse_pairs_ok a b id : name_ok a -> name_ok b -> id_ok id -> Z.of_nat (length a) + Z.of_nat (length b) <= 252 ->
  parse_pairs_by_denoms (167 :: nm a ++ nm b ++ be8 id) = Some (a, b, id).
Proof.
  intros Ha Hb Hi L. unfold parse_pairs_by_denoms. cbn [has_prefix PairsByDenomsIndexKeyPrefix]. change (167 =? 167) with true. cbn [andb]. set (k := 167 :: nm a ++ nm b ++ be8 id).
  set (la := Z.of_nat (length a)) in *. set (lb := Z.of_nat (length b)) in *.
  assert (E1 : byte_at k 1 = Some la) by reflexivity. rewrite E1. cbn [obind].
  rewrite (u8_small (2 + la)), (u8_small (3 + la)) by lia.
  assert (E2 : slice k 2 (2 + la) = Some a) by (apply (slice_mid [167; la] a (nm b ++ be8 id)); reflexivity).
  rewrite E2. cbn [obind].
  assert (E3 : byte_at k (2 + la) = Some lb).
  { change k with (([167; la] ++ a) ++ lb :: (b ++ be8 id)). apply byte_mid. rewrite app_length. cbn [length]. lia. }
  rewrite E3. cbn [obind]. rewrite !(u8_small (3 + la + lb)) by lia.
  assert (E4 : slice k (3 + la) (3 + la + lb) = Some b).
  { replace k with ((([167; la] ++ a) ++ [lb]) ++ b ++ be8 id) by (rewrite <- !app_assoc; reflexivity). apply slice_mid; rewrite ?app_length; cbn [length]; lia. }
  rewrite E4. cbn [obind].
  assert (E5 : slice_from k (3 + la + lb) = Some (be8 id)).
  { replace k with (((([167; la] ++ a) ++ [lb]) ++ b) ++ be8 id) by (rewrite <- !app_assoc; reflexivity). apply slice_end. rewrite !app_length. cbn [length]. lia. }
  rewrite E5. cbn [obind]. rewrite un8_be8 by assumption. reflexivity.
Qed.

(** ** order of iteration *)
Lemma lex_app a b x y : length a = length b -> lex_lt (a ++ x) (b ++ y) <-> lex_lt a b \/ a = b /\ lex_lt x y.
Proof.
  revert b. induction a as [|u a IH]; intros [|v b] L; try discriminate L; cbn.
  - split; [auto|intros [[]|[_ H]]; assumption].
  - rewrite IH by (cbn in L; lia). split.
    + intros [H|(-> & [H|[-> H]])]; auto.
    + intros [[H|[-> H]]|[E H]]; auto. injection E as -> ->. auto.
Qed.
Lemma be_order k : forall n m, 0 <= n < 256 ^ Z.of_nat k -> 0 <= m < 256 ^ Z.of_nat k -> lex_lt (be k n) (be k m) <-> n < m.
Proof.
  induction k as [|k IH]; intros n m Hn Hm; [cbn in *; lia|]. cbn [be]. rewrite lex_app by (rewrite !be_length; reflexivity).
  rewrite Nat2Z.inj_succ, Z.pow_succ_r in Hn, Hm by lia.
  pose proof (Z.div_mod n 256 ltac:(lia)). pose proof (Z.div_mod m 256 ltac:(lia)).
  pose proof (Z.mod_pos_bound n 256 ltac:(lia)). pose proof (Z.mod_pos_bound m 256 ltac:(lia)).
  assert (Hn' : 0 <= n / 256 < 256 ^ Z.of_nat k) by (split; [apply Z.div_pos; lia|apply Z.div_lt_upper_bound; lia]).
  assert (Hm' : 0 <= m / 256 < 256 ^ Z.of_nat k) by (split; [apply Z.div_pos; lia|apply Z.div_lt_upper_bound; lia]).
  rewrite IH by assumption. cbn [lex_lt]. split.
  - intros [A|[A [B|[_ []]]]]; [lia|]. assert (n / 256 = m / 256) by (rewrite <- (un_be k (n / 256)), <- (un_be k (m / 256)), A by assumption; reflexivity). lia.
  - intros A. destruct (Z.eq_dec (n / 256) (m / 256)) as [E|N]; [right; rewrite E; split; [reflexivity|left; lia]|left; nia].
Qed.
Lemma be8_order n m x y : id_ok n -> id_ok m -> lex_lt (be8 n ++ x) (be8 m ++ y) <-> n < m \/ n = m /\ lex_lt x y.
Proof.
  intros Hn Hm. rewrite lex_app by (rewrite !be8_length; reflexivity). unfold be8 at 1 2. rewrite be_order by (exact Hn || exact Hm).
  split; (intros [H|[E H]]; [auto|right; split; [|assumption]]); [apply be8_inj0; assumption|subst; reflexivity].
Qed.
Lemma be8_order0 n m : id_ok n -> id_ok m -> lex_lt (be8 n) (be8 m) <-> n < m.
Proof. intros Hn Hm. apply be_order; assumption. Qed.

(** ** pool coin denominations *)
Definition dval (l : bytes) : Z := fold_left (fun a c => a * 10 + (c - 48)) l 0.
Lemma dval_acc l : forall a, fold_left (fun a c => a * 10 + (c - 48)) l a = a * 10 ^ Z.of_nat (length l) + dval l.
Proof.
  unfold dval. induction l as [|c l IH]; intros a; [cbn; lia|]. cbn [fold_left]. rewrite IH, (IH (0 * 10 + (c - 48))).
  cbn [length]. rewrite Nat2Z.inj_succ, Z.pow_succ_r by lia. lia.
Qed.
Lemma dval_cons c l : dval (c :: l) = (c - 48) * 10 ^ Z.of_nat (length l) + dval l.
Proof. unfold dval at 1. cbn [fold_left]. rewrite dval_acc. reflexivity. Qed.
Lemma dval_snoc l c : dval (l ++ [c]) = dval l * 10 + (c - 48).
Proof. unfold dval. rewrite fold_left_app. reflexivity. Qed.

(** [digits] appends the digits of [n] in front of [acc] *)
Lemma digits_app fuel : forall n acc, digits fuel n acc = digits fuel n [] ++ acc.
Proof.
  induction fuel as [|k IH]; intros n acc; [reflexivity|]. cbn [digits]. destruct (n / 10 =? 0); [reflexivity|].
  rewrite IH, (IH (n / 10) [_]). rewrite <- app_assoc. reflexivity.
Qed.
Lemma digits_spec fuel : forall n, 0 <= n < 10 ^ Z.of_nat fuel -> (0 < fuel)%nat ->
  dval (digits fuel n []) = n /\ forallb is_digit (digits fuel n []) = true /\
  (0 < n -> exists c r, digits fuel n [] = c :: r /\ 49 <= c <= 57).
Proof.
  induction fuel as [|k IH]; intros n Hn Hk; [lia|]. cbn [digits]. rewrite Nat2Z.inj_succ, Z.pow_succ_r in Hn by lia.
  pose proof (Z.div_mod n 10 ltac:(lia)). pose proof (Z.mod_pos_bound n 10 ltac:(lia)).
  assert (Hd : is_digit (48 + n mod 10) = true) by (unfold is_digit; apply andb_true_iff; split; apply Z.leb_le; lia).
  destruct (Z.eqb_spec (n / 10) 0) as [E|E].
  - split; [rewrite dval_cons; change (dval []) with 0; change (10 ^ Z.of_nat (length [])) with 1; lia|]. split; [cbn [forallb]; rewrite Hd; reflexivity|]. intros Hp. exists (48 + n mod 10), []. split; [reflexivity|lia].
  - assert (Hq : 0 < n / 10 < 10 ^ Z.of_nat k) by (split; [pose proof (Z.div_pos n 10); lia|apply Z.div_lt_upper_bound; lia]).
    assert (Hk' : (0 < k)%nat) by (destruct k; [cbn in Hq; lia|lia]).
    rewrite digits_app. destruct (IH (n / 10) ltac:(lia) Hk') as (A & B & C). split; [rewrite dval_snoc; lia|]. split.
    + rewrite forallb_app, B. cbn [forallb]. rewrite Hd. reflexivity.
    + intros _. destruct (C ltac:(lia)) as (c & r & -> & Hc). exists c, (r ++ [48 + n mod 10]). auto.
Qed.

(** a digit string without leading zero is the digits of its value *)
Lemma digits_canon r : forall fuel c, 49 <= c <= 57 -> forallb is_digit r = true -> dval (c :: r) < 10 ^ Z.of_nat fuel -> (0 < fuel)%nat ->
  digits fuel (dval (c :: r)) [] = c :: r.
Proof.
  induction r as [|x r IH] using rev_ind; intros fuel c Hc Hr Hv Hf.
  - destruct fuel as [|k]; [lia|]. rewrite dval_cons in *. cbn [length] in *. change (dval []) with 0 in *. change (10 ^ Z.of_nat 0) with 1 in *.
    replace ((c - 48) * 1 + 0) with (c - 48) by lia. cbn [digits]. rewrite Z.div_small, Z.mod_small by lia. change (0 =? 0) with true. cbv iota. replace (48 + (c - 48)) with c by lia. reflexivity.
  - rewrite forallb_app in Hr. apply andb_true_iff in Hr. destruct Hr as [Hr Hx]. cbn [forallb] in Hx. rewrite andb_true_r in Hx.
    unfold is_digit in Hx. apply andb_true_iff in Hx. destruct Hx as [Hx1 Hx2]. apply Z.leb_le in Hx1, Hx2.
    destruct fuel as [|k]; [lia|]. rewrite app_comm_cons, dval_snoc in *.
    assert (Hpos : 0 < dval (c :: r)).
    { rewrite dval_cons. assert (0 <= dval r); [|pose proof (Z.pow_pos_nonneg 10 (Z.of_nat (length r))); nia].
      clear - Hr. induction r as [|y r IH]; [cbn; lia|]. rewrite dval_cons. cbn [forallb] in Hr. apply andb_true_iff in Hr. destruct Hr as [Hy Hr].
      unfold is_digit in Hy. apply andb_true_iff in Hy. destruct Hy as [Hy _]. apply Z.leb_le in Hy. specialize (IH Hr). pose proof (Z.pow_pos_nonneg 10 (Z.of_nat (length r))). nia. }
    assert (Hdiv : (dval (c :: r) * 10 + (x - 48)) / 10 = dval (c :: r)).
    { symmetry. apply Z.div_unique with (r := x - 48); lia. }
    assert (Hmod : (dval (c :: r) * 10 + (x - 48)) mod 10 = x - 48).
    { symmetry. apply Z.mod_unique with (q := dval (c :: r)); lia. }
    cbn [digits]. rewrite Hdiv, Hmod. destruct (Z.eqb_spec (dval (c :: r)) 0) as [|_]; [lia|].
    rewrite digits_app. rewrite Nat2Z.inj_succ, Z.pow_succ_r in Hv by lia.
    rewrite IH; auto; [f_equal; f_equal; lia|lia|]. destruct k; [change (10 ^ Z.of_nat 0) with 1 in Hv; lia|lia].
Qed.

Lemma has_prefix_iff p : forall k, has_prefix p k = true <-> exists r, k = p ++ r.
Proof.
  induction p as [|x p IH]; intros k; cbn; [split; eauto|]. destruct k as [|y k].
  - split; [discriminate|intros [r E]; discriminate E].
  - rewrite andb_true_iff, Z.eqb_eq, IH. split; [intros [-> [r ->]]; eauto|intros [r E]; injection E as -> ->; eauto].
Qed.

Theorem pool_denom_parses id : 1 <= id < 2 ^ 64 -> parse_pool_coin_denom (pool_coin_denom id) = Some id.
Proof.
  intros H. unfold parse_pool_coin_denom, pool_submatch, pool_coin_denom.
  assert (P64 : 2 ^ 64 <= 10 ^ Z.of_nat 20) by (vm_compute; discriminate).
  assert (Hid : 0 <= id < 10 ^ Z.of_nat 20) by lia.
  destruct (digits_spec 20 id Hid) as (A & B & C); [lia|]. clear P64 Hid. destruct C as (c & r & E & Hc); [lia|].
  rewrite (proj2 (has_prefix_iff pool_word _)) by (eexists; reflexivity).
  change (skipn 4 (pool_word ++ digits 20 id [])) with (digits 20 id []). rewrite E in *. cbn [forallb] in B. apply andb_true_iff in B.
  rewrite (proj2 B). rewrite (proj2 (Z.leb_le 49 c)), (proj2 (Z.leb_le c 57)) by lia. cbn [andb obind]. unfold parse_uint. fold (dval (c :: r)). rewrite A.
  destruct (Z.ltb_spec id (2 ^ 64)); [reflexivity|lia].
Qed.

Theorem pool_denom_canonical s id : parse_pool_coin_denom s = Some id -> 1 <= id < 2 ^ 64 /\ s = pool_coin_denom id.
Proof.
  unfold parse_pool_coin_denom, pool_submatch. destruct (has_prefix pool_word s) eqn:Hp; [|discriminate].
  apply has_prefix_iff in Hp. destruct Hp as [t ->]. change (skipn 4 (pool_word ++ t)) with t. destruct t as [|c r]; [discriminate|].
  destruct ((49 <=? c) && (c <=? 57) && forallb is_digit r) eqn:E; [|discriminate]. cbn [obind]. unfold parse_uint. fold (dval (c :: r)).
  destruct (Z.ltb_spec (dval (c :: r)) (2 ^ 64)) as [L|]; [|discriminate]. intros H. injection H as <-.
  apply andb_true_iff in E. destruct E as [E Hr]. apply andb_true_iff in E. destruct E as [E1 E2]. apply Z.leb_le in E1, E2.
  assert (P64 : 2 ^ 64 <= 10 ^ Z.of_nat 20) by (vm_compute; discriminate).
  assert (Hd : digits 20 (dval (c :: r)) [] = c :: r) by (apply digits_canon; [lia|assumption|lia|lia]).
  split; [split; [|assumption]|unfold pool_coin_denom; rewrite Hd; reflexivity].
  rewrite dval_cons. assert (0 <= dval r); [|pose proof (Z.pow_pos_nonneg 10 (Z.of_nat (length r))); nia].
  clear - Hr. induction r as [|y r IH]; [cbn; lia|]. rewrite dval_cons. cbn [forallb] in Hr. apply andb_true_iff in Hr. destruct Hr as [Hy Hr].
  unfold is_digit in Hy. apply andb_true_iff in Hy. destruct Hy as [Hy _]. apply Z.leb_le in Hy. specialize (IH Hr). pose proof (Z.pow_pos_nonneg 10 (Z.of_nat (length r))). nia.
Qed.
