(** The bank invariant: balances are never negative and add up to the supply. *)
From Verif Require Import Base Dec OrderModel MatchModel PoolModel RangeProofs KeeperModel KeeperLib KeeperSpec KeeperMicro MatchProofs.
From Coq Require Import Permutation.

Definition nonneg (b : bank) : Prop := forall a d, 0 <= bal b a d.

(** Change of balances as a list of (account, amounts). *)
Definition delta (l : list (addr * (denom -> Z))) (a : addr) (d : denom) : Z := sumZ (map (fun x => at_acc a (fst x) (snd x d)) l).
Definition total (l : list (addr * (denom -> Z))) (d : denom) : Z := sumZ (map (fun x => snd x d) l).

Lemma addr_dec (a b : addr) : {a = b} + {a <> b}.
Proof. destruct (addr_eqb_spec a b); auto. Qed.

Lemma sum_bump (f : addr -> Z) x v l : NoDup l -> In x l -> sumZ (map (fun a => f a + at_acc a x v) l) = sumZ (map f l) + v.
Proof.
  intros N H. induction l as [|y l IH]; [destruct H|]. inversion N as [|? ? N1 N2]; subst. cbn [map]. rewrite !sumZ_cons.
  unfold at_acc. destruct (addr_eqb_spec y x) as [->|D].
  - assert (E : map (fun a => f a + (if addr_eqb a x then v else 0)) l = map f l).
    { apply map_ext_in. intros a Ha. destruct (addr_eqb_spec a x) as [->|]; [contradiction|lia]. }
    rewrite E. lia.
  - destruct H as [->|H]; [congruence|]. unfold at_acc in IH. rewrite (IH N2 H). lia.
Qed.

Lemma conserved_bump b b' x (f : denom -> Z) : conserved b -> (forall a d, bal b' a d = bal b a d + at_acc a x (f d)) ->
  (forall d, supply b' d = supply b d + f d) -> conserved b'.
Proof.
  intros (l & N & Z & S) HB HS.
  assert (W : exists l', NoDup l' /\ In x l' /\ (forall a d, ~ In a l' -> bal b a d = 0) /\ forall d, supply b d = sumZ (map (fun a => bal b a d) l')).
  { destruct (in_dec addr_dec x l) as [I|I]; [exists l; auto|]. exists (x :: l). split; [constructor; assumption|]. split; [left; reflexivity|]. split.
    - intros a d Ha. apply Z. intros X. apply Ha. right. assumption.
    - intros d. cbn [map]. rewrite sumZ_cons, (Z x d I), S. lia. }
  destruct W as (l' & N' & I' & Z' & S'). exists l'. split; [assumption|]. split.
  - intros a d Ha. rewrite HB, (Z' a d Ha). unfold at_acc. destruct (addr_eqb_spec a x) as [->|]; [contradiction|lia].
  - intros d. rewrite HS, S', <- (sum_bump (fun a => bal b a d) x (f d) l' N' I'). f_equal. apply map_ext. intros a. rewrite HB. reflexivity.
Qed.

Lemma conserved_delta l : forall b b', conserved b -> (forall a d, bal b' a d = bal b a d + delta l a d) ->
  (forall d, supply b' d = supply b d + total l d) -> conserved b'.
Proof.
  induction l as [|[x f] l IH]; intros b b' C HB HS.
  - destruct C as (l & N & Z & S). exists l. unfold delta, total in *. cbn in HB, HS. split; [assumption|]. split.
    + intros a d Ha. rewrite HB, (Z a d Ha). lia.
    + intros d. rewrite HS, S. transitivity (sumZ (map (fun a => bal b a d) l)); [lia|]. f_equal. apply map_ext. intros a. rewrite HB. lia.
  - set (b1 := mkBank (fun a d => bal b a d + at_acc a x (f d)) (fun d => supply b d + f d)).
    assert (C1 : conserved b1) by (apply (conserved_bump b b1 x f); [assumption|reflexivity|reflexivity]).
    apply (IH b1 b' C1).
    + intros a d. rewrite HB. unfold b1, delta. cbn [bal map]. rewrite sumZ_cons. cbn [fst snd]. lia.
    + intros d. rewrite HS. unfold b1, total. cbn [supply map]. rewrite sumZ_cons. cbn [fst snd]. lia.
Qed.

Ltac delta_simpl := unfold delta, total, at_acc, of_denom; cbn [map fst snd]; rewrite ?sumZ_cons; cbn [sumZ fold_right]; unfold sumZ; cbn [fold_right].

Lemma conserved_moved b b' x y f : conserved b -> moved b b' x y f -> conserved b'.
Proof.
  intros C (M1 & M2). apply (conserved_delta [(x, fun d => - f d); (y, f)] b b' C).
  - intros a d. rewrite M1. delta_simpl. destruct (addr_eqb a x), (addr_eqb a y); lia.
  - intros d. rewrite M2. delta_simpl. lia.
Qed.
Lemma conserved_minted b b' i x to : conserved b -> minted_to b b' i x to -> conserved b'.
Proof.
  intros C (M1 & M2). apply (conserved_delta [(to, fun d => of_denom d (PoolCoin i) x)] b b' C).
  - intros a d. rewrite M1. delta_simpl. lia.
  - intros d. rewrite M2. delta_simpl. lia.
Qed.
Lemma conserved_dep b b' r acc pc : conserved b -> dep_settled b b' r acc pc -> conserved b'.
Proof.
  intros C (_ & _ & _ & M1 & M2).
  apply (conserved_delta [(GlobalEscrow, fun d => - amount_of (dr_coins r) d); (PoolReserve (dr_pool r), amount_of acc);
     (dr_owner r, fun d => amount_of (dr_coins r) d - amount_of acc d + of_denom d (PoolCoin (dr_pool r)) pc)] b b' C).
  - intros a d. rewrite M1. delta_simpl. destruct (addr_eqb a GlobalEscrow); lia.
  - intros d. rewrite M2. delta_simpl. lia.
Qed.
Lemma conserved_wd b b' r w : conserved b -> wd_settled b b' r w -> conserved b'.
Proof.
  intros C (_ & _ & M1 & M2).
  apply (conserved_delta [(GlobalEscrow, fun d => - of_denom d (wr_denom r) (wr_amt r)); (PoolReserve (wr_pool r), fun d => - amount_of w d);
     (wr_owner r, amount_of w)] b b' C).
  - intros a d. rewrite M1. delta_simpl. destruct (addr_eqb a GlobalEscrow), (addr_eqb a (PoolReserve (wr_pool r))); lia.
  - intros d. rewrite M2. delta_simpl. lia.
Qed.

Lemma nonneg_dep b b' r acc pc : nonneg b -> valid_coins (dr_coins r) = true -> dep_settled b b' r acc pc -> (exists u, dr_owner r = User u) -> nonneg b'.
Proof.
  intros C V (A1 & A2 & A3 & M1 & M2) (u & U) a d. rewrite M1, U. specialize (A1 d). specialize (A3 d). pose proof (C a d).
  unfold at_acc, of_denom. destruct a; cbn; try lia; try (match goal with |- context [?x =? ?y] => destruct (Z.eqb_spec x y) end; try lia); try (destruct (denom_eqb _ _); lia).
Qed.
Lemma nonneg_wd b b' r w : nonneg b -> wd_settled b b' r w -> (exists u, wr_owner r = User u) -> 0 < wr_amt r -> nonneg b'.
Proof.
  intros C (A1 & A2 & M1 & M2) (u & U) P a d. rewrite M1, U. specialize (A1 d). pose proof (C a d).
  unfold at_acc, of_denom. destruct a; cbn; try lia; try (match goal with |- context [?x =? ?y] => destruct (Z.eqb_spec x y); subst; lia end).
  destruct (denom_eqb_spec d (wr_denom r)) as [->|]; lia.
Qed.

Definition bank_ok (b : bank) : Prop := nonneg b /\ conserved b.

Lemma bank_ok_send b x y cs b' : bank_ok b -> send b x y cs = Some b' -> bank_ok b'.
Proof.
  intros [N C] H. split; [exact (moved_nonneg b b' x y cs N H)|]. destruct (send_spec _ _ _ _ _ H) as (_ & M & _). exact (conserved_moved _ _ _ _ _ C M).
Qed.
Lemma bank_ok_st_send s x y cs s' : bank_ok (st_bank s) -> st_send s x y cs = Some s' -> bank_ok (st_bank s').
Proof. intros B H. apply st_send_spec in H. destruct H as (b & -> & H). exact (bank_ok_send _ _ _ _ _ B H). Qed.

Lemma delete_bank s : st_bank (delete_outdated s) = st_bank s.
Proof. destruct (delete_outdated_eq s) as (f & -> & _). reflexivity. Qed.

Lemma bank_ok_finish s o st s' : bank_ok (st_bank s) -> finish_order s o st = Some s' -> live o = true -> bank_ok (st_bank s').
Proof.
  intros B H L. destruct (finish_order_spec _ _ _ _ H L) as (b & Hb & ->).
  assert (bank_ok b) by (destruct (0 <? ko_remaining o); [exact (bank_ok_send _ _ _ _ _ B Hb)|subst b; assumption]).
  destruct (ko_type o); assumption.
Qed.

Theorem bank_ok_mic Q s s' : mic Q s s' -> str s -> bank_ok (st_bank s) -> bank_ok (st_bank s').
Proof.
  intros M S B. destruct M; try assumption.
  - exact (bank_ok_st_send _ _ _ _ _ B H).
  - exact (bank_ok_st_send _ _ _ _ _ B H0).
  - cbn. destruct B as [N C]. split; [|exact (conserved_minted _ _ _ _ _ C H1)].
    intros a d. destruct H1 as [M1 _]. rewrite M1. specialize (N a d). unfold at_acc, of_denom. destruct (addr_eqb a (User u)), (denom_eqb d (PoolCoin i)); lia.
  - exact (bank_ok_st_send _ _ _ _ _ B H5).
  - exact (bank_ok_st_send _ _ _ _ _ B H2).
  - pose proof (bank_ok_st_send _ _ _ _ _ B H5). destruct typ; assumption.
  - exact (bank_ok_finish _ _ _ _ B H2 H0).
  - exact (bank_ok_st_send _ _ _ _ _ B H1).
  - destruct (i_deps _ S _ _ H) as (_ & _ & V & _ & U & _). destruct B as [N C]. cbn. split; [exact (nonneg_dep _ _ _ _ _ N V H2 U)|exact (conserved_dep _ _ _ _ _ C H2)].
  - exact (bank_ok_st_send _ _ _ _ _ B H1).
  - destruct (i_wds _ S _ _ H) as (_ & _ & _ & P & U). destruct B as [N C]. cbn. split; [exact (nonneg_wd _ _ _ _ N H2 U P)|exact (conserved_wd _ _ _ _ C H2)].
  - rewrite delete_bank. assumption.
Qed.

(** Parameters. *)
Definition params_ok (Q : ctl) (s : state) : Prop := valid_params (st_params s) = true /\ Q (st_params s).
Lemma finish_order_params s o st s' : finish_order s o st = Some s' -> live o = true -> st_params s' = st_params s.
Proof. intros H L. destruct (finish_order_spec _ _ _ _ H L) as (b & _ & ->). destruct (ko_type o); reflexivity. Qed.
Lemma st_send_params s x y cs s' : st_send s x y cs = Some s' -> st_params s' = st_params s.
Proof. intros H. apply st_send_spec in H. destruct H as (b & -> & _). reflexivity. Qed.
Theorem params_ok_mic Q s s' : mic Q s s' -> params_ok Q s -> params_ok Q s'.
Proof.
  intros M P. unfold params_ok in *. destruct M; try assumption.
  - rewrite (st_send_params _ _ _ _ _ H). assumption.
  - rewrite (st_send_params _ _ _ _ _ H0). assumption.
  - cbn. auto.
  - cbn. rewrite (st_send_params _ _ _ _ _ H5). assumption.
  - cbn. rewrite (st_send_params _ _ _ _ _ H2). assumption.
  - pose proof (st_send_params _ _ _ _ _ H5) as E. destruct typ; cbn; rewrite E; assumption.
  - rewrite (finish_order_params _ _ _ _ H2 H0). assumption.
  - cbn. rewrite (st_send_params _ _ _ _ _ H1). assumption.
  - cbn. rewrite (st_send_params _ _ _ _ _ H1). assumption.
  - destruct (delete_outdated_eq s) as (f & -> & _). assumption.
Qed.

(** The invariant carried through histories. *)
Record inv (Q : ctl) (s : state) : Prop := mkInv {
  v_str : str s; v_good : pools_good s; v_bank : bank_ok (st_bank s); v_params : params_ok Q s }.
Lemma inv_mic Q s s' : mic Q s s' -> inv Q s -> inv Q s'.
Proof.
  intros M [A B C D]. constructor; [exact (str_mic Q _ _ M A)|exact (pools_good_mic Q _ _ M B)|exact (bank_ok_mic Q _ _ M A C)|exact (params_ok_mic Q _ _ M D)].
Qed.
Lemma inv_mics Q s s' : mics Q s s' -> inv Q s -> inv Q s'.
Proof. induction 1; [auto|]. intros I. apply IHmics. exact (inv_mic Q _ _ H I). Qed.
Lemma inv_init (Q : ctl) p b h t : valid_params p = true -> Q p -> genesis_bank b -> inv Q (init_state p b h t).
Proof.
  intros V HQ (N & C & _). constructor; [apply str_init|intros i q H; discriminate|split; assumption|split; assumption].
Qed.
