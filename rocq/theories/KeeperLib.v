(** Lemmas about the data structures of KeeperModel: names, maps, coins, the bank. *)
From Verif Require Import Base Dec OrderModel MatchModel PoolModel KeeperModel.
From Coq Require Import Permutation Sorted.

Lemma denom_eqb_spec a b : reflect (a = b) (denom_eqb a b).
Proof.
  destruct a as [x|x], b as [y|y]; cbn; try (constructor; congruence);
    destruct (Z.eqb_spec x y); constructor; congruence.
Qed.
Lemma denom_eqb_refl a : denom_eqb a a = true.
Proof. destruct (denom_eqb_spec a a); congruence. Qed.
Lemma addr_eqb_spec a b : reflect (a = b) (addr_eqb a b).
Proof.
  destruct a, b; cbn; try (constructor; congruence);
    match goal with |- reflect _ (?x =? ?y) => destruct (Z.eqb_spec x y); constructor; congruence end.
Qed.
Lemma addr_eqb_refl a : addr_eqb a a = true.
Proof. destruct (addr_eqb_spec a a); congruence. Qed.
Lemma key_eqb_spec a b : reflect (a = b) (key_eqb a b).
Proof.
  destruct a as [a1 a2], b as [b1 b2]. unfold key_eqb. cbn [fst snd].
  destruct (Z.eqb_spec a1 b1), (Z.eqb_spec a2 b2); constructor; congruence.
Qed.
Lemma key_eqb_refl a : key_eqb a a = true.
Proof. destruct (key_eqb_spec a a); congruence. Qed.
Lemma key_ltb_irrefl a : key_ltb a a = false.
Proof. unfold key_ltb. lia. Qed.
Lemma key_ltb_trans a b c : key_ltb a b = true -> key_ltb b c = true -> key_ltb a c = true.
Proof. unfold key_ltb. lia. Qed.
Lemma key_ltb_total a b : key_ltb a b = false -> a <> b -> key_ltb b a = true.
Proof.
  destruct a as [a1 a2], b as [b1 b2]. unfold key_ltb. cbn [fst snd]. intros H N.
  assert (~ (a1 = b1 /\ a2 = b2)) by (intros [-> ->]; congruence). lia.
Qed.

Lemma sumZ_cons x l : sumZ (x :: l) = x + sumZ l.
Proof. reflexivity. Qed.
Lemma sumZ_app l1 l2 : sumZ (l1 ++ l2) = sumZ l1 + sumZ l2.
Proof. induction l1 as [|x l IH]; [reflexivity|]. cbn [app]. rewrite !sumZ_cons, IH. lia. Qed.
Lemma sumZ_nonneg l : (forall x, In x l -> 0 <= x) -> 0 <= sumZ l.
Proof. induction l as [|x l IH]; intros H; [cbn; lia|]. rewrite sumZ_cons. pose proof (H x (or_introl eq_refl)). specialize (IH (fun y Hy => H y (or_intror Hy))). lia. Qed.
Lemma sumZ_perm l1 l2 : Permutation l1 l2 -> sumZ l1 = sumZ l2.
Proof. induction 1; rewrite ?sumZ_cons in *; try lia. Qed.

(** ** maps *)
Section Map.
Context {V : Type}.
Implicit Type m : amap V.

Definition kv_lt (a b : key * V) : Prop := key_ltb (fst a) (fst b) = true.
Definition msorted m : Prop := StronglySorted kv_lt m.

Lemma mget_mset_eq m k v : mget (mset m k v) k = Some v.
Proof.
  induction m as [|[k' v'] m IH]; cbn; [rewrite key_eqb_refl; reflexivity|].
  destruct (key_eqb k k') eqn:E; cbn; [rewrite key_eqb_refl; reflexivity|].
  destruct (key_ltb k k'); cbn; [rewrite key_eqb_refl; reflexivity|]. rewrite E. assumption.
Qed.
Lemma mget_mset_neq m k k' v : k' <> k -> mget (mset m k v) k' = mget m k'.
Proof.
  intros N. assert (F : key_eqb k' k = false) by (destruct (key_eqb_spec k' k); congruence).
  induction m as [|[k1 v1] m IH]; cbn; [rewrite F; reflexivity|].
  destruct (key_eqb_spec k k1) as [->|N1]; cbn.
  - rewrite F. reflexivity.
  - destruct (key_ltb k k1); cbn; [rewrite F; reflexivity|]. destruct (key_eqb k' k1); [reflexivity|assumption].
Qed.
Lemma mget_mset m k k' v : mget (mset m k v) k' = if key_eqb k' k then Some v else mget m k'.
Proof. destruct (key_eqb_spec k' k) as [->|N]; [apply mget_mset_eq|apply mget_mset_neq; assumption]. Qed.
Lemma mset_mset m k a b : mset (mset m k a) k b = mset m k b.
Proof.
  induction m as [|[k1 v1] m IH]; cbn; [rewrite key_eqb_refl; reflexivity|].
  destruct (key_eqb_spec k k1) as [->|N1].
  - cbn. rewrite key_eqb_refl. reflexivity.
  - destruct (key_ltb k k1) eqn:L; cbn [mset].
    + rewrite key_eqb_refl. reflexivity.
    + destruct (key_eqb_spec k k1); [congruence|]. rewrite L, IH. reflexivity.
Qed.

Lemma mset_In m k v kv : In kv (mset m k v) -> kv = (k, v) \/ In kv m.
Proof.
  induction m as [|[k1 v1] m IH]; cbn; [intros [<-|[]]; auto|].
  destruct (key_eqb k k1); cbn; [intros [<-|H]; auto|].
  destruct (key_ltb k k1); cbn; [intros [<-|H]; auto|]. intros [<-|H]; [auto|]. destruct (IH H); auto.
Qed.
Lemma msorted_mset m k v : msorted m -> msorted (mset m k v).
Proof.
  unfold msorted. induction m as [|[k1 v1] m IH]; intros H; cbn; [repeat constructor|].
  inversion H as [|? ? H1 H2]; subst. rewrite Forall_forall in H2.
  destruct (key_eqb_spec k k1) as [->|N].
  - constructor; [assumption|]. rewrite Forall_forall. intros x Hx. apply (H2 x Hx).
  - destruct (key_ltb k k1) eqn:L.
    + constructor; [assumption|]. rewrite Forall_forall. intros x [<-|Hx]; [exact L|].
      unfold kv_lt. apply key_ltb_trans with (b := k1); [assumption|]. apply (H2 x Hx).
    + constructor; [apply IH; assumption|]. rewrite Forall_forall. intros x Hx. apply mset_In in Hx. destruct Hx as [->|Hx].
      * unfold kv_lt. cbn. apply key_ltb_total; congruence.
      * apply H2. assumption.
Qed.
Lemma msorted_filter m f : msorted m -> msorted (filter f m).
Proof.
  unfold msorted. induction 1 as [|x l H IH F]; cbn; [constructor|]. destruct (f x); [|assumption].
  constructor; [assumption|]. rewrite Forall_forall in *. intros y Hy. apply filter_In in Hy. apply F. tauto.
Qed.
Lemma msorted_mdel m k : msorted m -> msorted (mdel m k).
Proof. apply msorted_filter. Qed.
Lemma msorted_NoDup m : msorted m -> NoDup (map fst m).
Proof.
  unfold msorted. induction 1 as [|x l H IH F]; cbn; [constructor|]. constructor; [|assumption].
  rewrite in_map_iff. intros (y & E & Hy). rewrite Forall_forall in F. specialize (F y Hy). unfold kv_lt in F.
  rewrite E, key_ltb_irrefl in F. discriminate.
Qed.
Lemma mget_In m k v : mget m k = Some v -> In (k, v) m.
Proof.
  induction m as [|[k1 v1] m IH]; cbn; [discriminate|]. destruct (key_eqb_spec k k1) as [->|N].
  - intros E. injection E as ->. left. reflexivity.
  - intros E. right. auto.
Qed.
Lemma In_mget m k v : NoDup (map fst m) -> In (k, v) m -> mget m k = Some v.
Proof.
  induction m as [|[k1 v1] m IH]; cbn; [tauto|]. intros N. inversion N as [|? ? N1 N2]; subst. intros [E|H].
  - injection E as -> ->. rewrite key_eqb_refl. reflexivity.
  - destruct (key_eqb_spec k k1) as [->|D]; [|auto]. exfalso. apply N1. apply in_map_iff. exists (k1, v). auto.
Qed.
Lemma mget_iff m k v : msorted m -> mget m k = Some v <-> In (k, v) m.
Proof. intros H. split; [apply mget_In|apply In_mget, msorted_NoDup; assumption]. Qed.
Lemma mget_None m k : mget m k = None -> forall v, ~ In (k, v) m.
Proof.
  induction m as [|[k1 v1] m IH]; cbn; [tauto|]. destruct (key_eqb_spec k k1) as [->|N]; [discriminate|].
  intros H v [E|Hv]; [congruence|]. exact (IH H v Hv).
Qed.
Lemma mget_filter m f k : NoDup (map fst m) -> mget (filter f m) k = match mget m k with Some v => if f (k, v) then Some v else None | None => None end.
Proof.
  induction m as [|[k1 v1] m IH]; cbn; [reflexivity|]. intros N. inversion N as [|? ? N1 N2]; subst. specialize (IH N2).
  destruct (key_eqb_spec k k1) as [->|D].
  - destruct (f (k1, v1)) eqn:F; cbn; [rewrite key_eqb_refl; reflexivity|]. rewrite IH.
    destruct (mget m k1) eqn:G; [|reflexivity]. exfalso. apply N1. apply mget_In in G. apply in_map_iff. exists (k1, v). auto.
  - destruct (f (k1, v1)); cbn; [|assumption]. destruct (key_eqb_spec k k1); [congruence|assumption].
Qed.
Lemma mget_mdel m k k' : NoDup (map fst m) -> mget (mdel m k) k' = if key_eqb k' k then None else mget m k'.
Proof.
  intros N. unfold mdel. rewrite mget_filter by assumption. cbn [fst].
  destruct (key_eqb_spec k' k) as [->|D].
  - rewrite key_eqb_refl. cbn. destruct (mget m k); reflexivity.
  - assert (key_eqb k k' = false) as -> by (destruct (key_eqb_spec k k'); congruence). cbn. destruct (mget m k'); reflexivity.
Qed.

(** Sums over a map. *)
Definition msum (f : V -> Z) m : Z := sumZ (map (fun kv => f (snd kv)) m).
Lemma msum_cons f kv m : msum f (kv :: m) = f (snd kv) + msum f m.
Proof. reflexivity. Qed.
Lemma msum_mset f m k v : msorted m ->
  msum f (mset m k v) = msum f m + f v - match mget m k with Some o => f o | None => 0 end.
Proof.
  induction m as [|[k1 v1] m IH]; intros H; cbn [mset mget].
  - unfold msum. cbn. lia.
  - inversion H as [|? ? H1 H2]; subst. destruct (key_eqb_spec k k1) as [->|N].
    + rewrite !msum_cons. cbn [snd]. lia.
    + destruct (key_ltb k k1) eqn:L.
      * rewrite !msum_cons. cbn [snd]. destruct (mget m k) eqn:G; [|lia]. exfalso. apply mget_In in G.
        rewrite Forall_forall in H2. specialize (H2 _ G). unfold kv_lt in H2. cbn in H2.
        pose proof (key_ltb_trans _ _ _ H2 L). rewrite key_ltb_irrefl in *. discriminate.
      * rewrite !msum_cons, IH by assumption. lia.
Qed.
Lemma msum_ext f g m : (forall k v, In (k, v) m -> f v = g v) -> msum f m = msum g m.
Proof. intros H. unfold msum. f_equal. apply map_ext_in. intros [k v] Hk. apply (H k v Hk). Qed.
Lemma msum_nonneg f m : (forall k v, In (k, v) m -> 0 <= f v) -> 0 <= msum f m.
Proof. intros H. apply sumZ_nonneg. intros x Hx. apply in_map_iff in Hx. destruct Hx as ([k v] & <- & Hk). exact (H k v Hk). Qed.
Lemma msum_filter f (g : key * V -> bool) m : (forall kv, In kv m -> g kv = false -> f (snd kv) = 0) -> msum f (filter g m) = msum f m.
Proof.
  induction m as [|kv m IH]; intros H; [reflexivity|]. cbn [filter]. specialize (IH (fun x Hx => H x (or_intror Hx))).
  pose proof (H kv (or_introl eq_refl)). destruct (g kv); rewrite ?msum_cons; [lia|]. specialize (H0 eq_refl). lia.
Qed.
Lemma msum_ge1 f m k v : (forall k v, In (k, v) m -> 0 <= f v) -> In (k, v) m -> f v <= msum f m.
Proof.
  induction m as [|kv m IH]; intros H Hin; [destruct Hin|]. rewrite msum_cons.
  pose proof (msum_nonneg f m (fun k v Hk => H k v (or_intror Hk))). destruct Hin as [->|Hin].
  - cbn [snd]. lia.
  - specialize (IH (fun k v Hk => H k v (or_intror Hk)) Hin). destruct kv as [k1 v1]. specialize (H k1 v1 (or_introl eq_refl)). cbn [snd]. lia.
Qed.
End Map.

Lemma mprefix_In {V} (m : amap V) i kv : In kv (mprefix m i) <-> In kv m /\ fst (fst kv) = i.
Proof. unfold mprefix. rewrite filter_In. rewrite Z.eqb_eq. tauto. Qed.

(** ** coins *)
Lemma has_denom_In cs d : has_denom cs d = true <-> exists x, In (d, x) cs.
Proof.
  unfold has_denom. rewrite existsb_exists. split.
  - intros ([d' x] & H & E). cbn in E. destruct (denom_eqb_spec d d'); [subst|discriminate]. exists x. assumption.
  - intros (x & H). exists (d, x). split; [assumption|]. apply denom_eqb_refl.
Qed.
Lemma amount_of_notin cs d : has_denom cs d = false -> amount_of cs d = 0.
Proof.
  unfold has_denom. induction cs as [|[d' x] cs IH]; cbn; [reflexivity|]. intros H. apply orb_false_iff in H. destruct H as [-> H]. auto.
Qed.
Lemma valid_coins_cons d x cs : valid_coins ((d, x) :: cs) = true -> 0 < x /\ has_denom cs d = false /\ valid_coins cs = true.
Proof. cbn. intros H. apply andb_true_iff in H. destruct H as [H H3]. apply andb_true_iff in H. destruct H as [H1 H2]. rewrite negb_true_iff in H2. repeat split; [lia|assumption|assumption]. Qed.
Lemma valid_amount_nonneg cs d : valid_coins cs = true -> 0 <= amount_of cs d.
Proof.
  induction cs as [|[d' x] cs IH]; [cbn; lia|]. intros H. destruct (valid_coins_cons _ _ _ H) as (H1 & H2 & H3). cbn. destruct (denom_eqb d d'); [lia|auto].
Qed.
Lemma new_coins_spec cs r : new_coins cs = Some r ->
  valid_coins r = true /\ (forall c, In c cs -> 0 <= snd c) /\ r = filter (fun c => negb (snd c =? 0)) cs.
Proof.
  unfold new_coins. destruct (existsb _ cs) eqn:E; [discriminate|]. destruct (valid_coins _) eqn:V; [|discriminate].
  intros H. injection H as <-. split; [assumption|]. split; [|reflexivity]. intros c Hc.
  destruct (Z.ltb_spec (snd c) 0); [|lia]. exfalso. assert (existsb (fun c => snd c <? 0) cs = true); [|congruence].
  apply existsb_exists. exists c. split; [assumption|lia].
Qed.
Lemma new_coins_length cs r : new_coins cs = Some r -> (length r <= length cs)%nat.
Proof.
  unfold new_coins. destruct (existsb _ cs); [discriminate|]. destruct (valid_coins _); [|discriminate]. intros H. injection H as <-.
  induction cs as [|c cs IH]; cbn; [lia|]. destruct (negb _); cbn; lia.
Qed.
Lemma new_coins_one d x r : new_coins [(d, x)] = Some r -> 0 <= x /\ valid_coins r = true /\ (forall d', amount_of r d' = if denom_eqb d' d then x else 0) /\ (r = [] <-> x = 0) /\ r = (if x =? 0 then [] else [(d, x)]).
Proof.
  intros H. destruct (new_coins_spec _ _ H) as (V & P & E). specialize (P (d, x) (or_introl eq_refl)). cbn in P, E.
  destruct (Z.eqb_spec x 0) as [->|N]; cbn in E; subst r; cbn.
  - repeat split; auto. intros d'. destruct (denom_eqb d' d); reflexivity.
  - repeat split; auto; try lia; discriminate.
Qed.
Lemma new_coins_one_ok d x : 0 <= x -> exists r, new_coins [(d, x)] = Some r.
Proof.
  intros H. unfold new_coins. cbn [existsb snd]. destruct (Z.ltb_spec x 0); [lia|]. cbn [orb filter snd].
  destruct (Z.eqb_spec x 0); cbn; [eauto|]. destruct (Z.ltb_spec 0 x); [cbn; eauto|lia].
Qed.
Lemma new_coins_two d1 x1 d2 x2 : d1 <> d2 -> 0 <= x1 -> 0 <= x2 -> exists r, new_coins [(d1, x1); (d2, x2)] = Some r.
Proof.
  intros N H1 H2. unfold new_coins. cbn [existsb snd]. destruct (Z.ltb_spec x1 0); [lia|]. destruct (Z.ltb_spec x2 0); [lia|]. cbn [orb filter snd].
  assert (F : denom_eqb d1 d2 = false) by (destruct (denom_eqb_spec d1 d2); congruence).
  destruct (Z.eqb_spec x1 0), (Z.eqb_spec x2 0); cbn [negb]; cbn; rewrite ?F; destruct (Z.ltb_spec 0 x1), (Z.ltb_spec 0 x2); cbn; eauto; lia.
Qed.
Lemma new_coins_two_spec d1 x1 d2 x2 r : d1 <> d2 -> new_coins [(d1, x1); (d2, x2)] = Some r ->
  0 <= x1 /\ 0 <= x2 /\ valid_coins r = true /\ (forall d, amount_of r d = if denom_eqb d d1 then x1 else if denom_eqb d d2 then x2 else 0).
Proof.
  intros N H. destruct (new_coins_spec _ _ H) as (V & P & E). pose proof (P _ (or_introl eq_refl)) as P1. pose proof (P _ (or_intror (or_introl eq_refl))) as P2.
  cbn in P1, P2, E. split; [assumption|]. split; [assumption|]. split; [assumption|]. intros d. subst r.
  destruct (Z.eqb_spec x1 0) as [->|], (Z.eqb_spec x2 0) as [->|]; cbn; destruct (denom_eqb_spec d d1); destruct (denom_eqb_spec d d2); try reflexivity; congruence.
Qed.

(** ** bank *)
Lemma bal_set_bal b a d x a' d' : bal (set_bal b a d x) a' d' = if addr_eqb a' a && denom_eqb d' d then x else bal b a' d'.
Proof. reflexivity. Qed.

Lemma add_coins_bal cs : forall b a, valid_coins cs = true ->
  (forall a' d, bal (add_coins b a cs) a' d = bal b a' d + if addr_eqb a' a then amount_of cs d else 0) /\ supply (add_coins b a cs) = supply b.
Proof.
  unfold add_coins. induction cs as [|[d0 x] cs IH]; intros b a V; cbn [fold_left fst snd].
  - split; [|reflexivity]. intros a' d. cbn. destruct (addr_eqb a' a); lia.
  - destruct (valid_coins_cons _ _ _ V) as (Hx & Hn & V'). destruct (IH (set_bal b a d0 (bal b a d0 + x)) a V') as [I1 I2].
    split; [|rewrite I2; reflexivity]. intros a' d. rewrite I1, bal_set_bal. cbn [amount_of].
    destruct (addr_eqb_spec a' a) as [->|N]; cbn [andb]; [|lia]. destruct (denom_eqb_spec d d0) as [->|Nd]; [|lia].
    rewrite amount_of_notin by assumption. lia.
Qed.
Lemma sub_coins_bal cs : forall b a b', valid_coins cs = true -> sub_coins b a cs = Some b' ->
  (forall a' d, bal b' a' d = bal b a' d - if addr_eqb a' a then amount_of cs d else 0) /\ supply b' = supply b /\
  (forall d, 0 < amount_of cs d -> amount_of cs d <= bal b a d).
Proof.
  induction cs as [|[d0 x] cs IH]; intros b a b' V; cbn [sub_coins].
  - intros H. injection H as <-. split; [|split; [reflexivity|cbn; lia]]. intros a' d. cbn. destruct (addr_eqb a' a); lia.
  - destruct (valid_coins_cons _ _ _ V) as (Hx & Hn & V'). destruct (Z.ltb_spec (bal b a d0) x) as [|L]; [discriminate|].
    intros H. destruct (IH _ a b' V' H) as (I1 & I2 & I3). split; [|split].
    + intros a' d. rewrite I1, bal_set_bal. cbn [amount_of].
      destruct (addr_eqb_spec a' a) as [->|N]; cbn [andb]; [|lia]. destruct (denom_eqb_spec d d0) as [->|Nd]; [|lia].
      rewrite amount_of_notin by assumption. lia.
    + rewrite I2. reflexivity.
    + intros d. cbn [amount_of]. destruct (denom_eqb_spec d d0) as [->|Nd]; [lia|]. intros Hp. specialize (I3 d Hp).
      rewrite bal_set_bal in I3. destruct (denom_eqb_spec d d0); [congruence|]. rewrite andb_false_r in I3. assumption.
Qed.
Lemma sub_coins_ok cs : forall b a, valid_coins cs = true -> (forall d, 0 < amount_of cs d -> amount_of cs d <= bal b a d) -> exists b', sub_coins b a cs = Some b'.
Proof.
  induction cs as [|[d0 x] cs IH]; intros b a V H; cbn [sub_coins]; [eauto|].
  destruct (valid_coins_cons _ _ _ V) as (Hx & Hn & V').
  pose proof (H d0) as H0. cbn in H0. rewrite denom_eqb_refl in H0. specialize (H0 Hx).
  destruct (Z.ltb_spec (bal b a d0) x) as [|L]; [lia|]. apply IH; [assumption|]. intros d Hd. rewrite bal_set_bal.
  destruct (denom_eqb_spec d d0) as [->|Nd]; [rewrite amount_of_notin in Hd by assumption; lia|]. rewrite andb_false_r.
  specialize (H d). cbn [amount_of] in H. destruct (denom_eqb_spec d d0); [congruence|]. auto.
Qed.

(** [moved b b' from to f]: the bank after moving [f d] of every denom from one account to another. *)
Definition moved (b b' : bank) (from to : addr) (f : denom -> Z) : Prop :=
  (forall a d, bal b' a d = bal b a d - (if addr_eqb a from then f d else 0) + (if addr_eqb a to then f d else 0)) /\
  (forall d, supply b' d = supply b d).

Lemma send_spec b from to cs b' : send b from to cs = Some b' ->
  valid_coins cs = true /\ moved b b' from to (amount_of cs) /\ (forall d, 0 < amount_of cs d -> amount_of cs d <= bal b from d).
Proof.
  unfold send. destruct (valid_coins cs) eqn:V; [|discriminate]. destruct (sub_coins b from cs) as [b1|] eqn:E; [|discriminate].
  intros H. injection H as <-. split; [reflexivity|]. destruct (sub_coins_bal _ _ _ _ V E) as (S1 & S2 & S3).
  destruct (add_coins_bal cs b1 to V) as (A1 & A2). split; [|assumption]. split.
  - intros a d. rewrite A1, S1. lia.
  - intros d. rewrite A2, S2. reflexivity.
Qed.
Lemma send_ok b from to cs : valid_coins cs = true -> (forall d, 0 < amount_of cs d -> amount_of cs d <= bal b from d) -> exists b', send b from to cs = Some b'.
Proof.
  intros V H. unfold send. rewrite V. destruct (sub_coins_ok cs b from V H) as (b1 & ->). eauto.
Qed.
Lemma send_None b from to cs : send b from to cs = None -> valid_coins cs = true -> exists d, bal b from d < amount_of cs d.
Proof.
  intros H V. unfold send in H. rewrite V in H. destruct (sub_coins b from cs) as [b1|] eqn:E; [discriminate|]. clear H.
  revert b V E. induction cs as [|[d0 x] cs IH]; intros b V E; [discriminate|]. cbn [sub_coins] in E.
  destruct (valid_coins_cons _ _ _ V) as (Hx & Hn & V'). destruct (Z.ltb_spec (bal b from d0) x) as [L|L].
  - exists d0. cbn [amount_of]. rewrite denom_eqb_refl. assumption.
  - destruct (IH _ V' E) as (d & Hd). exists d. rewrite bal_set_bal in Hd. cbn [amount_of].
    destruct (denom_eqb_spec d d0) as [E0|N]; [|rewrite andb_false_r in Hd; assumption]. rewrite E0 in *.
    rewrite addr_eqb_refl in Hd. cbn in Hd. rewrite amount_of_notin in Hd by assumption. lia.
Qed.

Lemma moved_nonneg b b' from to cs : (forall a d, 0 <= bal b a d) -> send b from to cs = Some b' -> forall a d, 0 <= bal b' a d.
Proof.
  intros H S a d. destruct (send_spec _ _ _ _ _ S) as (V & (M & _) & L). rewrite M. specialize (L d).
  pose proof (valid_amount_nonneg cs d V). pose proof (H a d).
  destruct (addr_eqb_spec a from) as [E|]; [rewrite E in *|]; destruct (addr_eqb _ to); lia.
Qed.

Lemma mint_one b d x : 
  (forall a d', bal (mint b [(d, x)]) a d' = bal b a d' + if addr_eqb a DexModule && denom_eqb d' d then x else 0) /\
  (forall d', supply (mint b [(d, x)]) d' = supply b d' + if denom_eqb d' d then x else 0).
Proof.
  split; [intros a d'|intros d']; unfold mint, add_coins; cbn.
  - destruct (addr_eqb_spec a DexModule) as [->|]; cbn; [|lia]. destruct (denom_eqb_spec d' d) as [->|]; lia.
  - destruct (denom_eqb_spec d' d) as [->|]; lia.
Qed.
Lemma burn_one b d x b' : burn b [(d, x)] = Some b' ->
  (forall a d', bal b' a d' = bal b a d' - if addr_eqb a DexModule && denom_eqb d' d then x else 0) /\
  (forall d', supply b' d' = supply b d' - if denom_eqb d' d then x else 0) /\ x <= bal b DexModule d.
Proof.
  unfold burn. cbn. destruct (Z.ltb_spec (bal b DexModule d) x); [discriminate|]. intros E. injection E as <-. cbn.
  split; [|split; [|assumption]].
  - intros a d'. destruct (addr_eqb_spec a DexModule) as [->|]; cbn; [|lia]. destruct (denom_eqb_spec d' d) as [->|]; lia.
  - intros d'. destruct (denom_eqb_spec d' d) as [->|]; lia.
Qed.
