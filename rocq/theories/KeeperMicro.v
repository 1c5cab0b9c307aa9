(** Every transition of the keeper is a sequence of elementary steps ([mic]); invariants are proved
    per elementary step. *)
From Verif Require Import Base Dec TickSpec OrderModel MatchModel PoolModel RangeProofs KeeperModel KeeperLib KeeperSpec MatchProofs.
From Coq Require Import Permutation Sorted.

Definition add_pair (s : state) (base quote : denom) : state :=
  let id := st_last_pair s + 1 in
  let s2 := put_pair (set_last_pair s id) (mkPair id base quote 0 None 1) in
  set_pidx s2 (fun a b => if denom_eqb a base && denom_eqb b quote then Some id else st_pidx s2 a b).
Definition add_pool (s : state) (i u : Z) (kind : pool_kind) : state :=
  let id := st_last_pool s + 1 in
  let s1 := put_pool (set_last_pool s id) (mkPool id i kind (User u) 0 0 false) in
  set_plidx s1 (mset (st_plidx s1) (i, id) tt).
Definition pool_next_dep (p : kpool) : kpool :=
  mkPool (pl_id p) (pl_pair p) (pl_kind p) (pl_creator p) (pl_last_dep p + 1) (pl_last_wd p) (pl_disabled p).
Definition pool_next_wd (p : kpool) : kpool :=
  mkPool (pl_id p) (pl_pair p) (pl_kind p) (pl_creator p) (pl_last_dep p) (pl_last_wd p + 1) (pl_disabled p).
Definition add_order (s : state) (typ : otype) (u : Z) (pr : pair) (d : dir) (price : dec) (amt lifespan : Z) : state :=
  let id := pr_last_order pr + 1 in
  let needed := offer_coin_amount d price amt in
  let s2 := put_pair s (mkPair (pr_id pr) (pr_base pr) (pr_quote pr) id (pr_last_price pr) (pr_batch pr)) in
  let o := mkKOrder typ id (pr_id pr) (st_height s) (User u) d (offer_denom_of pr d) needed needed (demand_denom_of pr d) 0
                   price amt amt (pr_batch pr) (st_time s + lifespan) ONotExecuted in
  let s3 := oidx_add (put_order s2 o) o in
  match typ with TMM => set_mm_count s3 (User u) (pr_id pr) (st_mm s (User u) (pr_id pr) + 1) | _ => s3 end.

Definition dr_with (r : dreq) (acc : coins) (pc : Z) (st : rstatus) : dreq :=
  mkDreq (dr_id r) (dr_pool r) (dr_height r) (dr_owner r) (dr_coins r) acc pc st.
Definition wr_with (r : wreq) (w : coins) (st : rstatus) : wreq :=
  mkWreq (wr_id r) (wr_pool r) (wr_height r) (wr_owner r) (wr_denom r) (wr_amt r) w st.

Definition good_kind (k : pool_kind) : Prop := match k with PBasic => True | PRanged a b => good_range a b end.

(** Steps are relative to the parameters allowed and to the part of the block being executed: begin
    blocker, a message, matching, or execution of requests. *)
Inductive stage := SBegin | SMsg | STrade | SReq.
Record ctl := mkCtl { allowed : params -> Prop; stage_of : stage }.
Coercion allowed : ctl >-> Funclass.
Definition batching (Q : ctl) : Prop := stage_of Q = STrade \/ stage_of Q = SReq.

(** Messages end orders by cancelling, the end blocker never does. *)
Definition ends_ok (Q : ctl) (st : ostatus) : Prop := stage_of Q <> SBegin /\ (stage_of Q = SMsg <-> st = OCanceled).

Inductive mic (Q : ctl) (s : state) : state -> Prop :=
| mic_pay u to cs s' : st_send s (User u) to cs = Some s' -> stage_of Q = SMsg -> mic Q s s'
| mic_out from to cs s' : match from with PoolReserve _ | PairEscrow _ => True | _ => False end ->
    st_send s from to cs = Some s' -> stage_of Q = STrade -> mic Q s s'
| mic_mint i x u b' : 0 < x -> get_pool s i <> None -> minted_to (st_bank s) b' i x (User u) -> stage_of Q = SMsg -> mic Q s (set_bank s b')
| mic_clock h t : st_height s <= h -> st_time s <= t -> stage_of Q = SBegin -> mic Q s (set_clock s h t)
| mic_params p : valid_params p = true -> Q p -> stage_of Q = SMsg -> mic Q s (set_params s p)
| mic_new_pair base quote : base <> quote ->
    (forall i, st_pidx s base quote = Some i -> get_pair s i = None) -> stage_of Q = SMsg -> mic Q s (add_pair s base quote)
| mic_new_pool i u kind : get_pair s i <> None -> num_active s i < pm_max_pools (st_params s) ->
    (kind = PBasic -> existsb active_basic (pools_of_pair s i) = false) -> good_kind kind -> stage_of Q = SMsg -> mic Q s (add_pool s i u kind)
| mic_disable p : get_pool s (pl_id p) = Some p -> batching Q -> mic Q s (mark_disabled s p)
| mic_dep_new p pr u cs s1 : get_pool s (pl_id p) = Some p -> get_pair s (pl_pair p) = Some pr ->
    (forall c, In c cs -> in_pair pr (fst c) = true) -> cs <> [] -> (length cs <= 2)%nat -> pl_disabled p = false ->
    st_send s (User u) GlobalEscrow cs = Some s1 ->
    stage_of Q = SMsg -> mic Q s (put_dep (put_pool s1 (pool_next_dep p)) (mkDreq (pl_last_dep p + 1) (pl_id p) (st_height s) (User u) cs [] 0 RNotExecuted))
| mic_wd_new p u x s1 : get_pool s (pl_id p) = Some p -> 0 < x -> pl_disabled p = false ->
    st_send s (User u) GlobalEscrow [(PoolCoin (pl_id p), x)] = Some s1 ->
    stage_of Q = SMsg -> mic Q s (put_wd (put_pool s1 (pool_next_wd p)) (mkWreq (pl_last_wd p + 1) (pl_id p) (st_height s) (User u) (PoolCoin (pl_id p)) x [] RNotExecuted))
| mic_place typ u pr d price amt lifespan s1 : get_pair s (pr_id pr) = Some pr ->
    0 < price -> min_coin_amount <= amt -> of_int min_coin_amount <= price * amt < 2 ^ 315 -> 0 <= lifespan ->
    (typ = TMM -> st_mm s (User u) (pr_id pr) < pm_max_mm (st_params s)) ->
    st_send s (User u) (PairEscrow (pr_id pr)) [(offer_denom_of pr d, offer_coin_amount d price amt)] = Some s1 ->
    stage_of Q = SMsg -> (0 <= pm_tick_prec (st_params s) -> 0 <= pm_price_ratio (st_params s) < P18 -> is_tick (pm_tick_prec (st_params s)) price) ->
    mic Q s (add_order s1 typ u pr d price amt lifespan)
| mic_upd o rem recv open st : get_order s (ko_pair o) (ko_id o) = Some o -> live o = true ->
    0 <= rem <= ko_remaining o -> ko_received o <= recv -> 0 <= open <= ko_open o ->
    (ko_dir o = Sell -> ko_remaining o - rem = ko_open o - open) ->
    st = OPartiallyMatched \/ (st = ONotMatched /\ ko_status o = ONotExecuted) ->
    stage_of Q = STrade \/ (stage_of Q = SReq /\ rem = ko_remaining o /\ recv = ko_received o /\ open = ko_open o) ->
    mic Q s (put_order s (ko_with_status (ko_with_fill o rem recv open) st))
| mic_finish o st s' : get_order s (ko_pair o) (ko_id o) = Some o -> live o = true -> o_terminal st = true ->
    finish_order s o st = Some s' -> ends_ok Q st -> mic Q s s'
| mic_batch pr price : get_pair s (pr_id pr) = Some pr ->
    (price = pr_last_price pr \/ exists p, price = Some p /\ 0 < p) ->
    stage_of Q = STrade ->
    (forall n, pm_tick_prec (st_params s) <= n -> (forall k o, mget (st_orders s) k = Some o -> is_tick n (ko_price o)) ->
     (forall l, pr_last_price pr = Some l -> is_tick n l) -> forall p, price = Some p -> is_tick n p) ->
    mic Q s (put_pair s (mkPair (pr_id pr) (pr_base pr) (pr_quote pr) (pr_last_order pr) price (pr_batch pr + 1)))
| mic_dep_fail r s1 : mget (st_deps s) (dr_pool r, dr_id r) = Some r -> dr_status r = RNotExecuted ->
    st_send s GlobalEscrow (dr_owner r) (dr_coins r) = Some s1 -> stage_of Q = SReq -> mic Q s (put_dep s1 (dr_with r [] (dr_minted r) RFailed))
| mic_dep_ok r acc pc b' : mget (st_deps s) (dr_pool r, dr_id r) = Some r -> dr_status r = RNotExecuted ->
    valid_coins acc = true -> dep_settled (st_bank s) b' r acc pc ->
    stage_of Q = SReq -> mic Q s (put_dep (set_bank s b') (dr_with r acc pc RSucceeded))
| mic_wd_fail r s1 : mget (st_wds s) (wr_pool r, wr_id r) = Some r -> wr_status r = RNotExecuted ->
    st_send s GlobalEscrow (wr_owner r) [(wr_denom r, wr_amt r)] = Some s1 -> stage_of Q = SReq -> mic Q s (put_wd s1 (wr_with r (wr_withdrawn r) RFailed))
| mic_wd_ok r w b' : mget (st_wds s) (wr_pool r, wr_id r) = Some r -> wr_status r = RNotExecuted ->
    valid_coins w = true /\ (length w <= 2)%nat -> wd_settled (st_bank s) b' r w ->
    stage_of Q = SReq -> mic Q s (put_wd (set_bank s b') (wr_with r w RSucceeded))
| mic_delete : stage_of Q = SBegin -> mic Q s (delete_outdated s).

Inductive mics (Q : ctl) : state -> state -> Prop :=
| mics_refl s : mics Q s s
| mics_cons s1 s2 s3 : mic Q s1 s2 -> mics Q s2 s3 -> mics Q s1 s3.
Lemma mics_one Q s s' : mic Q s s' -> mics Q s s'.
Proof. intros H. econstructor; [exact H|constructor]. Qed.
Lemma mics_trans Q a b c : mics Q a b -> mics Q b c -> mics Q a c.
Proof. induction 1; [auto|]. intros. econstructor; [eassumption|auto]. Qed.

(** ** Structural invariants *)
Definition order_ok (pr : pair) (o : korder) : Prop :=
  1 <= ko_id o <= pr_last_order pr /\ ko_batch o <= pr_batch pr /\ 1 <= ko_batch o /\
  ko_offer_denom o = offer_denom_of pr (ko_dir o) /\ ko_demand_denom o = demand_denom_of pr (ko_dir o) /\
  (exists u, ko_owner o = User u) /\
  0 < ko_price o /\ 0 <= ko_open o <= ko_amt o /\ 0 <= ko_remaining o <= ko_offer o /\ 0 <= ko_received o /\
  0 <= ko_price o * ko_amt o < 2 ^ 315 /\
  ko_offer o = offer_coin_amount (ko_dir o) (ko_price o) (ko_amt o) /\
  (ko_dir o = Sell -> ko_remaining o = ko_open o).

Record str (s : state) : Prop := mkStr {
  i_pairs_sorted : msorted (st_pairs s);
  i_pools_sorted : msorted (st_pools s);
  i_deps_sorted : msorted (st_deps s);
  i_wds_sorted : msorted (st_wds s);
  i_orders_sorted : msorted (st_orders s);
  i_plidx_sorted : msorted (st_plidx s);
  i_oidx_sorted : forall a, msorted (st_oidx s a);
  i_pairs : forall k p, mget (st_pairs s) k = Some p ->
    k = (pr_id p, 0) /\ 1 <= pr_id p <= st_last_pair s /\ pr_base p <> pr_quote p /\ 0 <= pr_last_order p /\ 1 <= pr_batch p /\
    (forall x, pr_last_price p = Some x -> 0 < x) /\ st_pidx s (pr_base p) (pr_quote p) = Some (pr_id p);
  i_pidx : forall b q i, st_pidx s b q = Some i -> exists p, get_pair s i = Some p /\ pr_base p = b /\ pr_quote p = q;
  i_pools : forall k p, mget (st_pools s) k = Some p ->
    k = (pl_id p, 0) /\ 1 <= pl_id p <= st_last_pool s /\ 0 <= pl_last_dep p /\ 0 <= pl_last_wd p /\
    get_pair s (pl_pair p) <> None /\ mget (st_plidx s) (pl_pair p, pl_id p) = Some tt;
  i_plidx : forall i j, mget (st_plidx s) (i, j) = Some tt -> exists p, get_pool s j = Some p /\ pl_pair p = i;
  i_deps : forall k r, mget (st_deps s) k = Some r ->
    k = (dr_pool r, dr_id r) /\ (exists p, get_pool s (dr_pool r) = Some p /\ 1 <= dr_id r <= pl_last_dep p /\
       forall pr, get_pair s (pl_pair p) = Some pr -> forall c, In c (dr_coins r) -> in_pair pr (fst c) = true) /\
    valid_coins (dr_coins r) = true /\ dr_coins r <> [] /\ (exists u, dr_owner r = User u) /\
    (dr_status r = RNotExecuted -> dr_accepted r = [] /\ dr_minted r = 0);
  i_wds : forall k r, mget (st_wds s) k = Some r ->
    k = (wr_pool r, wr_id r) /\ (exists p, get_pool s (wr_pool r) = Some p /\ 1 <= wr_id r <= pl_last_wd p) /\
    wr_denom r = PoolCoin (wr_pool r) /\ 0 < wr_amt r /\ (exists u, wr_owner r = User u);
  i_orders : forall k o, mget (st_orders s) k = Some o ->
    k = (ko_pair o, ko_id o) /\ exists pr, get_pair s (ko_pair o) = Some pr /\ order_ok pr o;
  i_oidx : forall a k, mget (st_oidx s a) k = Some tt <-> exists o, mget (st_orders s) k = Some o /\ ko_owner o = a;
  i_nums : 0 <= st_last_pair s /\ 0 <= st_last_pool s
}.

Ltac inv_do :=
  repeat match goal with
  | H : None = Some _ |- _ => discriminate H
  | H : Some _ = Some _ |- _ => injection H; clear H; intros; subst
  | H : (match ?e with Some _ => _ | None => None end) = Some _ |- _ => destruct e eqn:?; [|discriminate H]
  | H : (if ?e then None else _) = Some _ |- _ => destruct e eqn:?; [discriminate H|]
  | H : (if ?e then _ else None) = Some _ |- _ => destruct e eqn:?; [|discriminate H]
  end.

Lemma st_send_spec s from to cs s' : st_send s from to cs = Some s' ->
  exists b, s' = set_bank s b /\ send (st_bank s) from to cs = Some b.
Proof. unfold st_send. intros H. inv_do. eauto. Qed.

Lemma set_bank_bank s b b' : set_bank (set_bank s b) b' = set_bank s b'. Proof. reflexivity. Qed.

(** Structural invariant: bank, clock and parameters are irrelevant. *)
Lemma str_set_bank s b : str s -> str (set_bank s b).
Proof. intros []. constructor; assumption. Qed.
Lemma str_set_clock s h t : str s -> str (set_clock s h t).
Proof. intros []. constructor; assumption. Qed.
Lemma str_set_params s p : str s -> str (set_params s p).
Proof. intros []. constructor; assumption. Qed.
Lemma str_set_mm s m : str s -> str (set_mm s m).
Proof. intros []. constructor; assumption. Qed.

Lemma key_neq1 a b x y : a <> b -> (a, x) <> (b, y) :> key. Proof. congruence. Qed.

Lemma get_pair_add s base quote i : get_pair (add_pair s base quote) i =
  if i =? st_last_pair s + 1 then Some (mkPair (st_last_pair s + 1) base quote 0 None 1) else get_pair s i.
Proof.
  unfold get_pair, add_pair. cbn. rewrite mget_mset. unfold key_eqb. cbn [fst snd]. rewrite andb_true_r. reflexivity.
Qed.
Lemma get_pair_fresh s i p : str s -> get_pair s i = Some p -> i <> st_last_pair s + 1.
Proof. intros [] H. apply i_pairs0 in H. destruct H as (E & H & _). injection E as ->. lia. Qed.
Lemma get_pair_id s i p : str s -> get_pair s i = Some p -> pr_id p = i.
Proof. intros [] H. apply i_pairs0 in H. destruct H as (E & H & _). congruence. Qed.
Lemma get_pool_id s i p : str s -> get_pool s i = Some p -> pl_id p = i.
Proof. intros [] H. apply i_pools0 in H. destruct H as (E & H & _). congruence. Qed.
Lemma get_order_id s i j o : str s -> get_order s i j = Some o -> ko_pair o = i /\ ko_id o = j.
Proof. intros [] H. apply i_orders0 in H. destruct H as (E & H & _). injection E as -> ->. auto. Qed.

Lemma str_add_pair s base quote : str s -> base <> quote ->
  (forall i, st_pidx s base quote = Some i -> get_pair s i = None) -> str (add_pair s base quote).
Proof.
  intros S Hne Hun. pose proof S as S0. destruct S.
  assert (Hno : st_pidx s base quote = None).
  { destruct (st_pidx s base quote) eqn:E; [|reflexivity]. destruct (i_pidx0 _ _ _ E) as (p & Hp & _). rewrite (Hun _ eq_refl) in Hp. discriminate. }
  assert (GP : forall i p, get_pair s i = Some p -> get_pair (add_pair s base quote) i = Some p).
  { intros i p H. rewrite get_pair_add. pose proof (get_pair_fresh s i p S0 H). destruct (Z.eqb_spec i (st_last_pair s + 1)); [lia|assumption]. }
  assert (GP' : forall i, get_pair s i <> None -> get_pair (add_pair s base quote) i <> None).
  { intros i. destruct (get_pair s i) eqn:E; [|congruence]. intros _. rewrite (GP _ _ E). discriminate. }
  constructor; try assumption.
  - apply msorted_mset. assumption.
  - intros k p. unfold add_pair. cbn. rewrite mget_mset. destruct (key_eqb_spec k (st_last_pair s + 1, 0)) as [->|N].
    + intros H. injection H as <-. cbn. rewrite !denom_eqb_refl. cbn. repeat split; auto; try lia. discriminate.
    + intros H. specialize (i_pairs0 k p H). destruct i_pairs0 as (A & B & C & D & E & F & G). repeat split; auto; try lia.
      destruct (denom_eqb_spec (pr_base p) base) as [E1|]; cbn; [|assumption]. destruct (denom_eqb_spec (pr_quote p) quote) as [E2|]; cbn; [|assumption].
      rewrite E1, E2 in G. congruence.
  - intros b q i. change (st_pidx (add_pair s base quote) b q) with (if denom_eqb b base && denom_eqb q quote then Some (st_last_pair s + 1) else st_pidx s b q).
    destruct (denom_eqb_spec b base) as [->|]; [destruct (denom_eqb_spec q quote) as [->|]|]; cbn [andb].
    + intros H. injection H as <-. rewrite get_pair_add, Z.eqb_refl. eexists. split; [reflexivity|]. auto.
    + intros H. destruct (i_pidx0 _ _ _ H) as (p & Hp & E). exists p. split; [apply GP; assumption|assumption].
    + intros H. destruct (i_pidx0 _ _ _ H) as (p & Hp & E). exists p. split; [apply GP; assumption|assumption].
  - intros k p H. specialize (i_pools0 k p H). destruct i_pools0 as (A & B & C & D & E & F). exact (conj A (conj B (conj C (conj D (conj (GP' _ E) F))))).
  - intros k r H. destruct (i_deps0 k r H) as (A & (p & P1 & P2 & P3) & B). split; [assumption|]. split; [|assumption].
    exists p. split; [assumption|]. split; [assumption|]. intros pr Hpr. apply P3.
    assert (N : get_pair s (pl_pair p) <> None) by (apply (i_pools0 _ _ P1)).
    destruct (get_pair s (pl_pair p)) eqn:E; [|congruence]. rewrite (GP _ _ E) in Hpr. assumption.
  - intros k o H. destruct (i_orders0 k o H) as (A & pr & B & C). split; [assumption|]. exists pr. split; [apply GP; assumption|assumption].
  - cbn. lia.
Qed.
Lemma get_pool_add s i u kind j : get_pool (add_pool s i u kind) j =
  if j =? st_last_pool s + 1 then Some (mkPool (st_last_pool s + 1) i kind (User u) 0 0 false) else get_pool s j.
Proof.
  unfold get_pool, add_pool. cbn. rewrite mget_mset. unfold key_eqb. cbn [fst snd]. rewrite andb_true_r. reflexivity.
Qed.
Lemma str_add_pool s i u kind : str s -> get_pair s i <> None -> str (add_pool s i u kind).
Proof.
  intros S Hp. pose proof S as S0. destruct S.
  assert (Fr : forall j p, get_pool s j = Some p -> j <> st_last_pool s + 1).
  { intros j p H. destruct (i_pools0 _ _ H) as (E & E2 & _). injection E as ->. lia. }
  assert (GP : forall j p, get_pool s j = Some p -> get_pool (add_pool s i u kind) j = Some p).
  { intros j p H. rewrite get_pool_add. pose proof (Fr j p H). destruct (Z.eqb_spec j (st_last_pool s + 1)); [lia|assumption]. }
  constructor; try assumption.
  - apply msorted_mset. assumption.
  - apply msorted_mset. assumption.
  - intros k p. unfold add_pool. cbn. rewrite !mget_mset. destruct (key_eqb_spec k (st_last_pool s + 1, 0)) as [->|N].
    + intros H. injection H as <-. cbn. rewrite key_eqb_refl. repeat split; auto; try lia.
    + intros H. destruct (i_pools0 k p H) as (A & B & C & D & E & F). repeat split; auto; try lia.
      destruct (key_eqb_spec (pl_pair p, pl_id p) (i, st_last_pool s + 1)) as [E1|]; [reflexivity|assumption].
  - intros a j. change (st_plidx (add_pool s i u kind)) with (mset (st_plidx s) (i, st_last_pool s + 1) tt). rewrite mget_mset. destruct (key_eqb_spec (a, j) (i, st_last_pool s + 1)) as [E|N].
    + injection E as -> ->. intros _. rewrite get_pool_add, Z.eqb_refl. eexists. split; reflexivity.
    + intros H. destruct (i_plidx0 _ _ H) as (p & H1 & H2). exists p. auto.
  - intros k r H. destruct (i_deps0 k r H) as (A & (p & P1 & P2 & P3) & B). split; [assumption|]. split; [|assumption]. exists p. auto.
  - intros k r H. destruct (i_wds0 k r H) as (A & (p & P1 & P2) & B). split; [assumption|]. split; [|assumption]. exists p. auto.
  - cbn. lia.
Qed.

(** Overwriting a pool by one with the same identity and possibly larger counters. *)
Lemma str_put_pool s p p' : str s -> get_pool s (pl_id p) = Some p ->
  pl_id p' = pl_id p -> pl_pair p' = pl_pair p -> pl_last_dep p <= pl_last_dep p' -> pl_last_wd p <= pl_last_wd p' -> str (put_pool s p').
Proof.
  intros S Hp E1 E2 L1 L2. destruct S.
  assert (GP : forall j, get_pool (put_pool s p') j = if j =? pl_id p then Some p' else get_pool s j).
  { intros j. unfold get_pool, put_pool. cbn. rewrite mget_mset, E1. unfold key_eqb. cbn [fst snd]. rewrite andb_true_r. reflexivity. }
  destruct (i_pools0 _ _ Hp) as (_ & I1 & I2 & I3 & I4 & I5).
  constructor; try assumption.
  - apply msorted_mset. assumption.
  - intros k q. unfold put_pool. cbn. rewrite mget_mset. destruct (key_eqb_spec k (pl_id p', 0)) as [->|N].
    + intros H. injection H as <-. rewrite E1, E2. repeat split; auto; lia.
    + intros H. apply (i_pools0 k q H).
  - intros a j H. destruct (i_plidx0 _ _ H) as (q & H1 & H2). rewrite GP. destruct (Z.eqb_spec j (pl_id p)) as [->|]; [|eauto].
    exists p'. split; [reflexivity|]. rewrite Hp in H1. injection H1 as <-. congruence.
  - intros k r H. destruct (i_deps0 k r H) as (A & (q & P1 & P2 & P3) & B). split; [assumption|]. split; [|assumption].
    rewrite GP. destruct (Z.eqb_spec (dr_pool r) (pl_id p)) as [E|]; [|exists q; auto].
    exists p'. split; [reflexivity|]. rewrite E, Hp in P1. injection P1 as <-. split; [lia|]. rewrite E2. exact P3.
  - intros k r H. destruct (i_wds0 k r H) as (A & (q & P1 & P2) & B). split; [assumption|]. split; [|assumption].
    rewrite GP. destruct (Z.eqb_spec (wr_pool r) (pl_id p)) as [E|]; [|exists q; auto].
    exists p'. split; [reflexivity|]. rewrite E, Hp in P1. injection P1 as <-. lia.
Qed.

(** Overwriting a pair by one with the same identity and possibly larger counters. *)
Lemma str_put_pair s p p' : str s -> get_pair s (pr_id p) = Some p ->
  pr_id p' = pr_id p -> pr_base p' = pr_base p -> pr_quote p' = pr_quote p -> pr_last_order p <= pr_last_order p' -> pr_batch p <= pr_batch p' ->
  (forall x, pr_last_price p' = Some x -> 0 < x) -> str (put_pair s p').
Proof.
  intros S Hp E1 E2 E3 L1 L2 L3. destruct S.
  assert (GP : forall j, get_pair (put_pair s p') j = if j =? pr_id p then Some p' else get_pair s j).
  { intros j. unfold get_pair, put_pair. cbn. rewrite mget_mset, E1. unfold key_eqb. cbn [fst snd]. rewrite andb_true_r. reflexivity. }
  destruct (i_pairs0 _ _ Hp) as (_ & I1 & I2 & I3 & I4 & I5 & I6).
  constructor; try assumption.
  - apply msorted_mset. assumption.
  - intros k q. unfold put_pair. cbn. rewrite mget_mset. destruct (key_eqb_spec k (pr_id p', 0)) as [->|N].
    + intros H. injection H as <-. rewrite E1, E2, E3. repeat split; auto; lia.
    + intros H. apply (i_pairs0 k q H).
  - intros a j i H. destruct (i_pidx0 _ _ _ H) as (q & H1 & H2 & H3). rewrite GP. destruct (Z.eqb_spec i (pr_id p)) as [->|]; [|eauto].
    exists p'. split; [reflexivity|]. rewrite Hp in H1. injection H1 as <-. split; congruence.
  - intros k q H. destruct (i_pools0 k q H) as (A & B & C & D & E & F).
    assert (E' : get_pair (put_pair s p') (pl_pair q) <> None) by (rewrite GP; destruct (_ =? _); [discriminate|assumption]).
    exact (conj A (conj B (conj C (conj D (conj E' F))))).
  - intros k r H. destruct (i_deps0 k r H) as (A & (q & P1 & P2 & P3) & B). split; [assumption|]. split; [|assumption].
    exists q. split; [assumption|]. split; [assumption|]. intros pr. rewrite GP. destruct (Z.eqb_spec (pl_pair q) (pr_id p)) as [E|]; [|apply P3].
    intros H0. injection H0 as <-. intros c Hc. rewrite E in P3. specialize (P3 p Hp c Hc). unfold in_pair in *. rewrite E2, E3. assumption.
  - intros k o H. destruct (i_orders0 k o H) as (A & q & B & C). split; [assumption|]. rewrite GP. destruct (Z.eqb_spec (ko_pair o) (pr_id p)) as [E|]; [|exists q; auto].
    exists p'. split; [reflexivity|]. rewrite E, Hp in B. injection B as <-. unfold order_ok in *. unfold offer_denom_of, demand_denom_of in *. rewrite E2, E3. intuition lia.
Qed.

(** Overwriting an order by one with the same identity. *)
Lemma str_put_order s o o' : str s -> get_order s (ko_pair o) (ko_id o) = Some o ->
  ko_id o' = ko_id o -> ko_pair o' = ko_pair o -> ko_owner o' = ko_owner o ->
  (forall pr, get_pair s (ko_pair o) = Some pr -> order_ok pr o -> order_ok pr o') -> str (put_order s o').
Proof.
  intros S Ho E1 E2 E3 Hok. destruct S. destruct (i_orders0 _ _ Ho) as (_ & pr & Hpr & Hook).
  constructor; try assumption.
  - apply msorted_mset. assumption.
  - intros k q. unfold put_order. cbn. rewrite mget_mset. destruct (key_eqb_spec k (ko_pair o', ko_id o')) as [->|N].
    + intros H. injection H as <-. split; [reflexivity|]. exists pr. rewrite E2. split; [assumption|auto].
    + intros H. apply (i_orders0 k q H).
  - intros a k. unfold put_order. cbn. rewrite i_oidx0. split.
    + intros (q & H1 & H2). rewrite mget_mset. destruct (key_eqb_spec k (ko_pair o', ko_id o')) as [->|N]; [|eauto].
      exists o'. split; [reflexivity|]. rewrite E1, E2 in H1. unfold get_order in Ho. rewrite Ho in H1. injection H1 as <-. congruence.
    + intros (q & H1 & H2). rewrite mget_mset in H1. destruct (key_eqb_spec k (ko_pair o', ko_id o')) as [->|N]; [|eauto].
      injection H1 as <-. exists o. rewrite E1, E2. split; [assumption|congruence].
Qed.

Lemma str_add_order s typ u pr d price amt lifespan : str s -> get_pair s (pr_id pr) = Some pr ->
  0 < price -> min_coin_amount <= amt -> of_int min_coin_amount <= price * amt < 2 ^ 315 -> 0 <= offer_coin_amount d price amt ->
  str (add_order s typ u pr d price amt lifespan).
Proof.
  intros S Hp H1 H2 H3 H4.
  set (pr' := mkPair (pr_id pr) (pr_base pr) (pr_quote pr) (pr_last_order pr + 1) (pr_last_price pr) (pr_batch pr)).
  assert (S2 : str (put_pair s pr')).
  { destruct S. destruct (i_pairs0 _ _ Hp) as (_ & I1 & I2 & I3 & I4 & I5 & I6). apply (str_put_pair s pr pr'); cbn; auto; try lia. constructor; assumption. }
  unfold add_order. fold pr'. set (needed := offer_coin_amount d price amt) in *.
  set (o := mkKOrder typ (pr_last_order pr + 1) (pr_id pr) (st_height s) (User u) d (offer_denom_of pr d) needed needed (demand_denom_of pr d) 0
                   price amt amt (pr_batch pr) (st_time s + lifespan) ONotExecuted).
  assert (Fr : mget (st_orders s) (pr_id pr, pr_last_order pr + 1) = None).
  { destruct S. destruct (mget (st_orders s) (pr_id pr, pr_last_order pr + 1)) as [q|] eqn:E; [|reflexivity].
    destruct (i_orders0 _ _ E) as (A & q2 & B & C). injection A as A1 A2. rewrite <- A1, Hp in B. injection B as <-. unfold order_ok in C. lia. }
  assert (GP : get_pair (put_pair s pr') (pr_id pr) = Some pr').
  { unfold get_pair, put_pair. cbn. apply mget_mset_eq. }
  assert (S3 : str (oidx_add (put_order (put_pair s pr') o) o)).
  { pose proof S as S0. destruct S2, S0. constructor; try assumption.
    - apply msorted_mset. assumption.
    - intros a. cbn. destruct (addr_eqb a (User u)); [apply msorted_mset|]; apply i_oidx_sorted0.
    - intros k q. unfold oidx_add, put_order. cbn. rewrite mget_mset. destruct (key_eqb_spec k (pr_id pr, pr_last_order pr + 1)) as [->|N].
      + intros H. injection H as <-. split; [reflexivity|]. exists pr'. split; [exact GP|]. pose proof (i_pairs1 _ _ Hp) as (_ & _ & _ & I4 & I5 & _).
        cbn in I4, I5. unfold order_ok. cbn. unfold min_coin_amount in *. unfold of_int, P18 in *. repeat split; auto; try lia.
        * exists u. reflexivity.
        * intros ->. reflexivity.
      + apply i_orders0.
    - intros a k. unfold oidx_add, put_order. cbn. rewrite mget_mset. destruct (addr_eqb_spec a (User u)) as [->|Na]; [rewrite mget_mset|]; destruct (key_eqb_spec k (pr_id pr, pr_last_order pr + 1)) as [->|Nk].
      + split; [intros _; exists o; auto|reflexivity].
      + apply i_oidx0.
      + rewrite i_oidx1. split.
        * intros (q & Hq & _). rewrite Fr in Hq. discriminate.
        * intros (q & Hq & E). injection Hq as <-. cbn in E. congruence.
      + apply i_oidx0. }
  destruct typ; try exact S3. apply str_set_mm. exact S3.
Qed.

Lemma str_put_dep s r : str s -> (exists p, get_pool s (dr_pool r) = Some p /\ 1 <= dr_id r <= pl_last_dep p /\
       forall pr, get_pair s (pl_pair p) = Some pr -> forall c, In c (dr_coins r) -> in_pair pr (fst c) = true) ->
    valid_coins (dr_coins r) = true -> dr_coins r <> [] -> (exists u, dr_owner r = User u) ->
    (dr_status r = RNotExecuted -> dr_accepted r = [] /\ dr_minted r = 0) -> str (put_dep s r).
Proof.
  intros S A B B' C D. destruct S. constructor; try assumption.
  - apply msorted_mset. assumption.
  - intros k q. unfold put_dep. cbn. rewrite mget_mset. destruct (key_eqb_spec k (dr_pool r, dr_id r)) as [->|N]; [|apply i_deps0].
    intros H. injection H as <-. exact (conj eq_refl (conj A (conj B (conj B' (conj C D))))).
Qed.
Lemma str_put_wd s r : str s -> (exists p, get_pool s (wr_pool r) = Some p /\ 1 <= wr_id r <= pl_last_wd p) ->
    wr_denom r = PoolCoin (wr_pool r) -> 0 < wr_amt r -> (exists u, wr_owner r = User u) -> str (put_wd s r).
Proof.
  intros S A B C D. destruct S. constructor; try assumption.
  - apply msorted_mset. assumption.
  - intros k q. unfold put_wd. cbn. rewrite mget_mset. destruct (key_eqb_spec k (wr_pool r, wr_id r)) as [->|N]; [|apply i_wds0].
    intros H. injection H as <-. exact (conj eq_refl (conj A (conj B (conj C D)))).
Qed.

(** FinishOrder. *)
Lemma finish_order_spec s o st s' : finish_order s o st = Some s' -> live o = true ->
  exists b, (if 0 <? ko_remaining o then send (st_bank s) (PairEscrow (ko_pair o)) (ko_owner o) [(ko_offer_denom o, ko_remaining o)] = Some b else b = st_bank s) /\
    s' = (let s2 := put_order (set_bank s b) (ko_with_status o st) in
          match ko_type o with
          | TMM => set_mm_count s2 (ko_owner o) (ko_pair o) (if st_mm s (ko_owner o) (ko_pair o) <=? 1 then 0 else st_mm s (ko_owner o) (ko_pair o) - 1)
          | _ => s2 end).
Proof.
  unfold finish_order, live. intros H L. rewrite negb_true_iff in L. rewrite L in H.
  destruct (0 <? ko_remaining o) eqn:E.
  - destruct (get_pair s (ko_pair o)); [|discriminate]. destruct (st_send _ _ _ _) as [s1|] eqn:E1; [|discriminate].
    apply st_send_spec in E1. destruct E1 as (b & -> & E1). exists b. split; [assumption|]. injection H as <-. destruct (ko_type o); reflexivity.
  - exists (st_bank s). split; [reflexivity|]. injection H as <-. destruct s. destruct (ko_type o); reflexivity.
Qed.

(** DeleteOutdatedRequests. *)
Lemma delete_outdated_eq s : exists f, delete_outdated s = set_oidx
    (set_orders (set_wds (set_deps s (filter (fun kv => negb (r_should_be_deleted (dr_status (snd kv)))) (st_deps s)))
      (filter (fun kv => negb (r_should_be_deleted (wr_status (snd kv)))) (st_wds s)))
      (filter (fun kv => negb (o_terminal (ko_status (snd kv)))) (st_orders s))) f /\
    (forall a, msorted (st_oidx s a) -> msorted (f a)) /\
    (forall a k, msorted (st_oidx s a) -> mget (f a) k = Some tt <->
       mget (st_oidx s a) k = Some tt /\ ~ exists kv, In kv (st_orders s) /\ o_terminal (ko_status (snd kv)) = true /\ k = (ko_pair (snd kv), ko_id (snd kv)) /\ ko_owner (snd kv) = a).
Proof.
  unfold delete_outdated. cbn [st_deps st_wds st_orders set_deps set_wds set_orders].
  set (s3 := set_orders _ _). set (dead := filter _ (st_orders s)).
  assert (G : forall l s0, exists f, fold_left (fun (s : state) (kv : key * korder) => oidx_del s (snd kv)) l s0 = set_oidx s0 f /\
    (forall a, msorted (st_oidx s0 a) -> msorted (f a)) /\
    (forall a k, msorted (st_oidx s0 a) -> mget (f a) k = Some tt <-> mget (st_oidx s0 a) k = Some tt /\ ~ exists kv, In kv l /\ k = (ko_pair (snd kv), ko_id (snd kv)) /\ ko_owner (snd kv) = a)).
  { clear s3 dead. induction l as [|kv l IH]; intros s0; cbn [fold_left].
    - exists (st_oidx s0). split; [destruct s0; reflexivity|]. split; [auto|]. intros a k _. split; [|tauto]. intros H. split; [assumption|]. intros (x & [] & _).
    - destruct (IH (oidx_del s0 (snd kv))) as (f & E & F1 & F2). exists f. split; [rewrite E; destruct s0; reflexivity|].
      assert (K : forall a, msorted (st_oidx s0 a) -> msorted (st_oidx (oidx_del s0 (snd kv)) a)).
      { intros a H. cbn. destruct (addr_eqb a (ko_owner (snd kv))); [apply msorted_mdel|]; assumption. }
      split; [auto|]. intros a k H. rewrite F2 by (apply K; assumption). unfold oidx_del at 1. cbn.
      destruct (addr_eqb_spec a (ko_owner (snd kv))) as [->|Na].
      + rewrite mget_mdel by (apply msorted_NoDup; assumption). destruct (key_eqb_spec k (ko_pair (snd kv), ko_id (snd kv))) as [->|Nk].
        * split; [intros [X _]; discriminate|]. intros [_ X]. exfalso. apply X. exists kv. cbn. auto.
        * split; intros [X Y]; (split; [assumption|]); intros (y & Hy & E1 & E2); apply Y; exists y; cbn; auto. destruct Hy as [<-|Hy]; [congruence|auto].
      + split; intros [X Y]; (split; [assumption|]); intros (y & Hy & E1 & E2); apply Y; exists y; cbn; auto. destruct Hy as [<-|Hy]; [congruence|auto]. }
  destruct (G dead s3) as (f & E & F1 & F2). exists f. split; [exact E|]. split; [exact F1|]. intros a k H. rewrite (F2 a k H). cbn.
  split; intros [X Y]; (split; [assumption|]); intros (y & Hy & E1); apply Y; exists y.
  - destruct E1 as (E1 & E2 & E3). split; [apply filter_In; auto|auto].
  - apply filter_In in Hy. tauto.
Qed.

Lemma str_delete s : str s -> str (delete_outdated s).
Proof.
  intros S. destruct (delete_outdated_eq s) as (f & E & F1 & F2). rewrite E. clear E. destruct S.
  constructor; try assumption.
  - apply msorted_filter. assumption.
  - apply msorted_filter. assumption.
  - apply msorted_filter. assumption.
  - intros a. apply F1. apply i_oidx_sorted0.
  - intros k r. cbn. rewrite mget_filter by (apply msorted_NoDup; assumption). destruct (mget (st_deps s) k) eqn:G; [|discriminate].
    destruct (negb _); [|discriminate]. intros H. injection H as <-. apply (i_deps0 _ _ G).
  - intros k r. cbn. rewrite mget_filter by (apply msorted_NoDup; assumption). destruct (mget (st_wds s) k) eqn:G; [|discriminate].
    destruct (negb _); [|discriminate]. intros H. injection H as <-. apply (i_wds0 _ _ G).
  - intros k r. cbn. rewrite mget_filter by (apply msorted_NoDup; assumption). destruct (mget (st_orders s) k) eqn:G; [|discriminate].
    destruct (negb _); [|discriminate]. intros H. injection H as <-. apply (i_orders0 _ _ G).
  - intros a k. cbn. rewrite (F2 a k (i_oidx_sorted0 a)), i_oidx0. rewrite mget_filter by (apply msorted_NoDup; assumption). split.
    + intros [(o & H1 & H2) N]. exists o. rewrite H1. cbn. destruct (o_terminal (ko_status o)) eqn:T; [|auto]. exfalso. apply N.
      exists (k, o). cbn. destruct (i_orders0 _ _ H1) as (Ek & _). split; [apply mget_In; assumption|auto].
    + intros (o & H1 & H2). destruct (mget (st_orders s) k) as [q|] eqn:G; [|discriminate]. cbn in H1. destruct (o_terminal (ko_status q)) eqn:T; [discriminate|].
      cbn in H1. injection H1 as <-. split; [eauto|]. intros ((k' & q2) & X1 & X2 & X3 & X4). cbn in *. apply In_mget in X1; [|apply msorted_NoDup; assumption].
      destruct (i_orders0 _ _ X1) as (Ek & _). rewrite Ek, <- X3, G in X1. congruence.
Qed.

Lemma offer_coin_amount_pos d price amt : 0 < price -> 0 < amt -> 0 < offer_coin_amount d price amt.
Proof.
  intros H1 H2. destruct d; cbn; [|assumption]. unfold dtrunc, chop_trunc, dceil, dmul_int.
  pose proof (Z.quot_rem' (price * amt) P18) as E. assert (0 < P18) by reflexivity. assert (0 < price * amt) by nia.
  pose proof (Z.rem_bound_pos (price * amt) P18 ltac:(lia) ltac:(lia)). pose proof (Z.quot_pos (price * amt) P18 ltac:(lia) ltac:(lia)).
  destruct (Z.leb_spec (Z.rem (price * amt) P18) 0); rewrite Z.quot_mul by lia; nia.
Qed.

Theorem str_mic Q s s' : mic Q s s' -> str s -> str s'.
Proof.
  intros M S. destruct M.
  - apply st_send_spec in H. destruct H as (b & -> & _). apply str_set_bank. assumption.
  - apply st_send_spec in H0. destruct H0 as (b & -> & _). apply str_set_bank. assumption.
  - apply str_set_bank. assumption.
  - apply str_set_clock. assumption.
  - apply str_set_params. assumption.
  - apply str_add_pair; assumption.
  - apply str_add_pool; assumption.
  - apply (str_put_pool s p); cbn; auto; lia.
  - apply st_send_spec in H5. destruct H5 as (b & -> & Es). destruct (send_spec _ _ _ _ _ Es) as (V & _).
    assert (S1 : str (put_pool (set_bank s b) (pool_next_dep p))).
    { apply (str_put_pool (set_bank s b) p); cbn; auto; try lia. apply str_set_bank. assumption. }
    apply str_put_dep; auto; cbn.
    + exists (pool_next_dep p). split; [apply mget_mset_eq|]. cbn. split.
      * destruct S. destruct (i_pools0 _ _ H) as (_ & _ & X & _). lia.
      * intros pr0 Hpr. assert (pr0 = pr) as -> by (unfold get_pair in *; cbn in *; congruence). assumption.
    + eauto.
  - apply st_send_spec in H2. destruct H2 as (b & -> & Es).
    assert (S1 : str (put_pool (set_bank s b) (pool_next_wd p))).
    { apply (str_put_pool (set_bank s b) p); cbn; auto; try lia. apply str_set_bank. assumption. }
    apply str_put_wd; auto; cbn.
    + exists (pool_next_wd p). split; [apply mget_mset_eq|]. cbn. destruct S. destruct (i_pools0 _ _ H) as (_ & _ & _ & X & _). lia.
    + eauto.
  - apply st_send_spec in H5. destruct H5 as (b & -> & Es). apply str_add_order; auto.
    + apply str_set_bank. assumption.
    + unfold min_coin_amount in *. pose proof (offer_coin_amount_pos d price amt ltac:(lia) ltac:(lia)). lia.
  - apply (str_put_order s o); auto. intros pr Hpr. unfold order_ok. cbn. intros (A & B & C & D & E & F & G & I & J & K & L & N & X).
    repeat split; auto; try lia. intros Hs. specialize (X Hs). specialize (H4 Hs). lia.
  - destruct (finish_order_spec _ _ _ _ H2 H0) as (b & _ & ->). cbn zeta.
    assert (S1 : str (put_order (set_bank s b) (ko_with_status o st))).
    { apply (str_put_order (set_bank s b) o); auto. apply str_set_bank. assumption. }
    destruct (ko_type o); try exact S1. apply str_set_mm. exact S1.
  - destruct S. destruct (i_pairs0 _ _ H) as (_ & I1 & I2 & I3 & I4 & I5 & I6). apply (str_put_pair s pr); cbn; auto; try lia.
    + constructor; assumption.
    + destruct H0 as [->|(p & -> & Hp)]; [assumption|]. intros x E. injection E as <-. assumption.
  - apply st_send_spec in H1. destruct H1 as (b & -> & _). destruct (i_deps _ S _ _ H) as (_ & A & B & B' & C & D).
    apply str_put_dep; cbn; auto. apply str_set_bank. assumption. discriminate.
  - destruct (i_deps _ S _ _ H) as (_ & A & B & B' & C & D). apply str_put_dep; cbn; auto. apply str_set_bank. assumption. discriminate.
  - apply st_send_spec in H1. destruct H1 as (b & -> & _). destruct (i_wds _ S _ _ H) as (_ & A & B & C & D).
    apply str_put_wd; cbn; auto. apply str_set_bank. assumption.
  - destruct (i_wds _ S _ _ H) as (_ & A & B & C & D). apply str_put_wd; cbn; auto. apply str_set_bank. assumption.
  - apply str_delete. assumption.
Qed.
Theorem str_mics Q s s' : mics Q s s' -> str s -> str s'.
Proof. induction 1; [auto|]. intros S. eauto using str_mic. Qed.

Lemma str_init p b h t : str (init_state p b h t).
Proof.
  constructor; cbn; try (intros; discriminate); try (apply SSorted_nil); try lia.
  - intros a. apply SSorted_nil.
  - intros a k. split; [discriminate|]. intros (o & H & _). discriminate.
Qed.

(** The range of every ranged pool is valid. *)
Definition pools_good (s : state) : Prop := forall i p, get_pool s i = Some p -> good_kind (pl_kind p).

Lemma get_put_pool s p j : get_pool (put_pool s p) j = if j =? pl_id p then Some p else get_pool s j.
Proof. unfold get_pool, put_pool. cbn. rewrite mget_mset. unfold key_eqb. cbn [fst snd]. rewrite andb_true_r. reflexivity. Qed.

Lemma pools_good_put s p p' : pools_good s -> get_pool s (pl_id p) = Some p -> pl_kind p' = pl_kind p -> pools_good (put_pool s p').
Proof.
  intros G H E i q. rewrite get_put_pool. destruct (i =? pl_id p'); [|apply G]. intros X. injection X as <-. rewrite E. apply (G _ _ H).
Qed.

Lemma pools_good_same s s' : st_pools s' = st_pools s -> pools_good s -> pools_good s'.
Proof. intros E G i p. unfold get_pool. rewrite E. apply G. Qed.

Lemma delete_pools s : st_pools (delete_outdated s) = st_pools s.
Proof. destruct (delete_outdated_eq s) as (f & -> & _). reflexivity. Qed.

Lemma finish_order_pools s o st s' : finish_order s o st = Some s' -> live o = true -> st_pools s' = st_pools s.
Proof. intros H L. destruct (finish_order_spec _ _ _ _ H L) as (b & _ & ->). destruct (ko_type o); reflexivity. Qed.

Theorem pools_good_mic Q s s' : mic Q s s' -> pools_good s -> pools_good s'.
Proof.
  intros M G. destruct M; try (apply (pools_good_same s); [reflexivity|assumption]).
  - apply st_send_spec in H. destruct H as (b & -> & _). assumption.
  - apply st_send_spec in H0. destruct H0 as (b & -> & _). assumption.
  - intros j p. rewrite get_pool_add. destruct (j =? _); [|apply G]. intros X. injection X as <-. assumption.
  - apply (pools_good_put s p); auto.
  - apply st_send_spec in H5. destruct H5 as (b & -> & Es). apply (pools_good_put (set_bank s b) p); auto.
  - apply st_send_spec in H2. destruct H2 as (b & -> & Es). apply (pools_good_put (set_bank s b) p); auto.
  - apply st_send_spec in H5. destruct H5 as (b & -> & Es). destruct typ; assumption.
  - apply (pools_good_same s); [|assumption]. eapply finish_order_pools; eassumption.
  - apply st_send_spec in H1. destruct H1 as (b & -> & _). assumption.
  - apply st_send_spec in H1. destruct H1 as (b & -> & _). assumption.
  - apply (pools_good_same s); [apply delete_pools|assumption].
Qed.
