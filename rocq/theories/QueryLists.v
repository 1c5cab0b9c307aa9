(** What each listing query returns. *)
From Verif Require Import Base Dec OrderModel PoolModel KeeperModel KeeperLib KeeperSpec KeeperMicro KeeperBank KeeperTrade KeeperHist QueryModel QuerySpec QueryProofs QueryState.
From Coq Require Import Sorting.Sorted.

Lemma all_value {V} (l : amap V) : all_resp value l = Some (map snd l).
Proof. induction l as [|e l IH]; cbn [all_resp map]; [reflexivity|]. rewrite IH. reflexivity. Qed.
Lemma all_total {V A} (f : key * V -> A) (l : amap V) : all_resp (fun e => Some (f e)) l = Some (map f l).
Proof. induction l as [|e l IH]; cbn [all_resp map]; [reflexivity|]. rewrite IH. reflexivity. Qed.
Lemma sorted_map {V A} (R : A -> A -> Prop) (f : key * V -> A) (l : amap V) : msorted l -> (forall a b, In a l -> In b l -> kv_lt a b -> R (f a) (f b)) -> StronglySorted R (map f l).
Proof.
  intros S. induction S as [|a l S IH F]; intros H; cbn [map]; [constructor|]. constructor.
  - apply IH. intros x y Hx Hy. apply H; right; assumption.
  - rewrite Forall_forall in *. intros y Hy. apply in_map_iff in Hy. destruct Hy as (b & <- & Hb). apply H; [left; reflexivity|right; exact Hb|exact (F b Hb)].
Qed.
Lemma in_mget {V} (m : amap V) k v : msorted m -> In (k, v) m <-> mget m k = Some v.
Proof. intros S. split; [apply In_mget; apply msorted_NoDup; exact S|apply mget_In]. Qed.
Lemma kv_lt_fst {V} (a b : key * V) i : fst (fst a) = i -> fst (fst b) = i -> kv_lt a b -> snd (fst a) < snd (fst b).
Proof. unfold kv_lt, key_ltb. intros -> ->. rewrite Z.ltb_irrefl, Z.eqb_refl. cbn. lia. Qed.

Lemma orders_listed s i : str s -> i <> 0 -> exists all, lists (q_orders s i) all /\ StronglySorted (fun a b => ko_id a < ko_id b) all /\
  forall o, In o all <-> get_order s i (ko_id o) = Some o.
Proof.
  intros S Ni. pose proof (i_orders_sorted _ S) as So. exists (map snd (filter (fun e => ko_pair (snd e) =? i) (st_orders s))). split; [|split].
  - unfold q_orders. destruct (Z.eqb_spec i 0); [contradiction|]. apply paginate_lists; [exact So|apply all_value].
  - apply sorted_map; [apply msorted_filter; exact So|]. intros [k a] [k' b] Ha Hb L. apply filter_In in Ha, Hb. destruct Ha as [Ha Pa], Hb as [Hb Pb]. cbn [snd] in *.
    apply (in_mget _ _ _ So) in Ha, Hb. destruct (i_orders _ S _ _ Ha) as (-> & _). destruct (i_orders _ S _ _ Hb) as (-> & _). apply Z.eqb_eq in Pa, Pb. rewrite Pa, Pb in L. exact (kv_lt_fst ((i, ko_id a), a) ((i, ko_id b), b) i eq_refl eq_refl L).
  - intros o. rewrite in_map_iff. split.
    + intros ([k o'] & <- & H). apply filter_In in H. destruct H as [H P]. cbn [snd] in *. apply (in_mget _ _ _ So) in H. destruct (i_orders _ S _ _ H) as (-> & _). apply Z.eqb_eq in P. rewrite P in H. exact H.
    + intros H. unfold get_order in H. exists ((i, ko_id o), o). split; [reflexivity|]. apply filter_In. split; [apply (in_mget _ _ _ So); exact H|]. destruct (i_orders _ S _ _ H) as (E & _). injection E as E. cbn [snd]. apply Z.eqb_eq. congruence.
Qed.
Lemma deposits_listed s i : str s -> i <> 0 -> exists all, lists (q_deposits s i) all /\ StronglySorted (fun a b => dr_id a < dr_id b) all /\
  forall r, In r all <-> mget (st_deps s) (i, dr_id r) = Some r.
Proof.
  intros S Ni. pose proof (i_deps_sorted _ S) as So. exists (map snd (filter (fun e => dr_pool (snd e) =? i) (st_deps s))). split; [|split].
  - unfold q_deposits. destruct (Z.eqb_spec i 0); [contradiction|]. apply paginate_lists; [exact So|apply all_value].
  - apply sorted_map; [apply msorted_filter; exact So|]. intros [k a] [k' b] Ha Hb L. apply filter_In in Ha, Hb. destruct Ha as [Ha Pa], Hb as [Hb Pb]. cbn [snd] in *.
    apply (in_mget _ _ _ So) in Ha, Hb. destruct (i_deps _ S _ _ Ha) as (-> & _). destruct (i_deps _ S _ _ Hb) as (-> & _). apply Z.eqb_eq in Pa, Pb. rewrite Pa, Pb in L. exact (kv_lt_fst ((i, dr_id a), a) ((i, dr_id b), b) i eq_refl eq_refl L).
  - intros o. rewrite in_map_iff. split.
    + intros ([k o'] & <- & H). apply filter_In in H. destruct H as [H P]. cbn [snd] in *. apply (in_mget _ _ _ So) in H. destruct (i_deps _ S _ _ H) as (-> & _). apply Z.eqb_eq in P. rewrite P in H. exact H.
    + intros H. exists ((i, dr_id o), o). split; [reflexivity|]. apply filter_In. split; [apply (in_mget _ _ _ So); exact H|]. destruct (i_deps _ S _ _ H) as (E & _). injection E as E. cbn [snd]. apply Z.eqb_eq. congruence.
Qed.
Lemma withdrawals_listed s i : str s -> i <> 0 -> exists all, lists (q_withdrawals s i) all /\ StronglySorted (fun a b => wr_id a < wr_id b) all /\
  forall r, In r all <-> mget (st_wds s) (i, wr_id r) = Some r.
Proof.
  intros S Ni. pose proof (i_wds_sorted _ S) as So. exists (map snd (filter (fun e => wr_pool (snd e) =? i) (st_wds s))). split; [|split].
  - unfold q_withdrawals. destruct (Z.eqb_spec i 0); [contradiction|]. apply paginate_lists; [exact So|apply all_value].
  - apply sorted_map; [apply msorted_filter; exact So|]. intros [k a] [k' b] Ha Hb L. apply filter_In in Ha, Hb. destruct Ha as [Ha Pa], Hb as [Hb Pb]. cbn [snd] in *.
    apply (in_mget _ _ _ So) in Ha, Hb. destruct (i_wds _ S _ _ Ha) as (-> & _). destruct (i_wds _ S _ _ Hb) as (-> & _). apply Z.eqb_eq in Pa, Pb. rewrite Pa, Pb in L. exact (kv_lt_fst ((i, wr_id a), a) ((i, wr_id b), b) i eq_refl eq_refl L).
  - intros o. rewrite in_map_iff. split.
    + intros ([k o'] & <- & H). apply filter_In in H. destruct H as [H P]. cbn [snd] in *. apply (in_mget _ _ _ So) in H. destruct (i_wds _ S _ _ H) as (-> & _). apply Z.eqb_eq in P. rewrite P in H. exact H.
    + intros H. exists ((i, wr_id o), o). split; [reflexivity|]. apply filter_In. split; [apply (in_mget _ _ _ So); exact H|]. destruct (i_wds _ S _ _ H) as (E & _). injection E as E. cbn [snd]. apply Z.eqb_eq. congruence.
Qed.

(** Reading the main store through an index. *)
Lemma through_index {X B} (m : amap X) (get : key -> option B) (f : B -> key) : (forall e, In e m -> exists b, get (fst e) = Some b /\ f b = fst e) ->
  exists bs, map (fun e => get (fst e)) m = map Some bs /\ map f bs = map fst m /\ (forall b, In b bs <-> In (f b) (map fst m) /\ get (f b) = Some b).
Proof.
  induction m as [|e m IH]; intros H.
  - exists []. split; [reflexivity|]. split; [reflexivity|]. intros b. cbn. tauto.
  - destruct (IH (fun x Hx => H x (or_intror Hx))) as (bs & E1 & E2 & E3). destruct (H e (or_introl eq_refl)) as (b0 & G & F).
    exists (b0 :: bs). split; [cbn [map]; rewrite G, E1; reflexivity|]. split; [cbn [map]; rewrite F, E2; reflexivity|].
    intros b. cbn [map In]. rewrite E3. split.
    + intros [<-|[P Q]]; [split; [left; symmetry; exact F|rewrite F; exact G]|split; [right; exact P|exact Q]].
    + intros [[P|P] Q]; [left; rewrite <- P, G in Q; congruence|right; split; assumption].
Qed.
Lemma sorted_fst {X B} (m : amap X) (f : B -> key) bs : msorted m -> map f bs = map fst m -> StronglySorted (fun a b => key_ltb (f a) (f b) = true) bs.
Proof.
  intros S. revert bs. induction S as [|e m S IH F]; intros [|b bs] E; cbn [map] in E; try discriminate E; [constructor|]. injection E as E1 E2. constructor; [apply IH; exact E2|].
  rewrite Forall_forall in *. intros y Hy. rewrite E1. assert (Z1 : In (f y) (map fst m)) by (rewrite <- E2; apply in_map; exact Hy).
  apply in_map_iff in Z1. destruct Z1 as (e' & <- & He). exact (F e' He).
Qed.
Lemma map_filter_in {X} (m : amap X) g k : In k (map fst (filter g m)) <-> exists v, In (k, v) m /\ g (k, v) = true.
Proof.
  rewrite in_map_iff. split.
  - intros ([k' v] & <- & H). apply filter_In in H. exists v. exact H.
  - intros (v & H). exists (k, v). split; [reflexivity|]. apply filter_In. exact H.
Qed.

Lemma orders_by_listed s a i : str s -> exists all, lists (q_orders_by s a i) (map Some all) /\
  StronglySorted (fun o p => ko_pair o < ko_pair p \/ (ko_pair o = ko_pair p /\ ko_id o < ko_id p)) all /\
  forall o, In o all <-> get_order s (ko_pair o) (ko_id o) = Some o /\ ko_owner o = a /\ (i = 0 \/ ko_pair o = i).
Proof.
  intros S. pose proof (i_oidx_sorted _ S a) as So. set (m := filter (fun e => (i =? 0) || (fst (fst e) =? i)) (st_oidx s a)).
  destruct (through_index m (fun k => get_order s (fst k) (snd k)) (fun o => (ko_pair o, ko_id o))) as (bs & E1 & E2 & E3).
  { intros [k []] H. apply filter_In in H. destruct H as [H _]. apply (in_mget _ _ _ So) in H. apply (i_oidx _ S) in H. destruct H as (o & H & _). exists o. unfold get_order. cbn [fst]. rewrite <- surjective_pairing.
    split; [exact H|]. destruct (i_orders _ S _ _ H) as (-> & _). reflexivity. }
  exists bs. split; [|split].
  - unfold q_orders_by. rewrite <- E1. apply paginate_lists; [exact So|]. apply (all_total (fun e => get_order s (fst (fst e)) (snd (fst e)))).
  - assert (X : StronglySorted (fun o p => key_ltb (ko_pair o, ko_id o) (ko_pair p, ko_id p) = true) bs) by (apply (sorted_fst m (fun o => (ko_pair o, ko_id o))); [apply msorted_filter; exact So|exact E2]).
    clear -X. induction X as [|o bs X IH F]; constructor; [exact IH|]. rewrite Forall_forall in *. intros p Hp. specialize (F p Hp). unfold key_ltb in F. cbn [fst snd] in F. lia.
  - intros o. rewrite E3. unfold m. rewrite map_filter_in. cbn [fst snd]. split.
    + intros [([] & H & P) G]. apply (in_mget _ _ _ So) in H. apply (i_oidx _ S) in H. destruct H as (o' & H & O). unfold get_order in *. cbn [fst snd] in H. rewrite H in G. injection G as ->.
      split; [exact H|]. split; [exact O|]. apply orb_true_iff in P. rewrite !Z.eqb_eq in P. exact P.
    + intros (G & O & P). split; [|exact G]. exists tt. split; [apply (in_mget _ _ _ So); apply (i_oidx _ S); exists o; split; [exact G|exact O]|].
      apply orb_true_iff. rewrite !Z.eqb_eq. exact P.
Qed.

(** Pools. *)
Lemma all_resp_in {V A} (resp : key * V -> option A) (l : amap V) : (forall e, In e l -> resp e <> None) ->
  exists all, all_resp resp l = Some all /\ (forall a, In a all <-> exists e, In e l /\ resp e = Some a) /\ (forall R : A -> A -> Prop, (forall e e' a a', In e l -> In e' l -> kv_lt e e' -> resp e = Some a -> resp e' = Some a' -> R a a') -> msorted l -> StronglySorted R all).
Proof.
  induction l as [|e l IH]; intros H.
  - exists []. split; [reflexivity|]. split; [intros a; split; [intros []|intros (e & [] & _)]|]. intros R _ _. constructor.
  - destruct (IH (fun x Hx => H x (or_intror Hx))) as (all & E & I & Srt). destruct (resp e) as [a0|] eqn:Ra; [|exfalso; exact (H e (or_introl eq_refl) Ra)].
    exists (a0 :: all). split; [cbn [all_resp]; rewrite Ra, E; reflexivity|]. split.
    + intros a. cbn [In]. rewrite I. split.
      * intros [<-|(e' & He & Re)]; [exists e; split; [left; reflexivity|exact Ra]|exists e'; split; [right; exact He|exact Re]].
      * intros (e' & [<-|He] & Re); [left; congruence|right; exists e'; split; assumption].
    + intros R HR S. inversion S as [|? ? S1 S2]; subst. constructor.
      * apply Srt; [|exact S1]. intros x y ax ay Hx Hy. apply HR; right; assumption.
      * rewrite Forall_forall in *. intros y Hy. apply I in Hy. destruct Hy as (e' & He & Re). exact (HR e e' a0 y (or_introl eq_refl) (or_intror He) (S2 e' He) Ra Re).
Qed.
Lemma response_pool s p v : pool_response s p = Some v -> pv_pool v = p.
Proof.
  unfold pool_response. intros H. destruct (get_pair s (pl_pair p)); [|discriminate H]. cbn zeta in H. destruct (pl_disabled p); [injection H as <-; reflexivity|].
  destruct (of_res _); [|discriminate H]. destruct (of_res _); [|discriminate H]. injection H as <-. reflexivity.
Qed.
Lemma pools_listed s i dis : str s -> (forall p, get_pool s (pl_id p) = Some p -> i = 0 \/ pl_pair p = i -> shown dis (Some p) = true -> pool_response s p <> None) ->
  exists all, lists (q_pools s i dis) all /\ StronglySorted (fun a b => pl_id (pv_pool a) < pl_id (pv_pool b)) all /\
  forall v, In v all <-> get_pool s (pl_id (pv_pool v)) = Some (pv_pool v) /\ (i = 0 \/ pl_pair (pv_pool v) = i) /\ shown dis (Some (pv_pool v)) = true /\ pool_response s (pv_pool v) = Some v.
Proof.
  intros S H. unfold q_pools. destruct (Z.eqb_spec i 0) as [Ei|Ni].
  - pose proof (i_pools_sorted _ S) as So.
    destruct (all_resp_in (fun e => pool_response s (snd e)) (filter (fun e => shown dis (Some (snd e))) (st_pools s))) as (all & E & I & Srt).
    { intros [k p] He. apply filter_In in He. destruct He as [He Sh]. apply (in_mget _ _ _ So) in He. destruct (i_pools _ S _ _ He) as (-> & _). exact (H p He (or_introl Ei) Sh). }
    exists all. split; [apply paginate_lists; [exact So|exact E]|]. split.
    + apply Srt; [|apply msorted_filter; exact So]. intros [k p] [k' p'] v v' He He' L R R'. cbn [snd] in *. rewrite (response_pool _ _ _ R), (response_pool _ _ _ R').
      apply filter_In in He, He'. destruct He as [He _], He' as [He' _]. apply (in_mget _ _ _ So) in He, He'. destruct (i_pools _ S _ _ He) as (-> & _). destruct (i_pools _ S _ _ He') as (-> & _).
      unfold kv_lt, key_ltb in L. cbn [fst snd] in L. lia.
    + intros v. rewrite I. split.
      * intros ([k p] & He & R). cbn [snd] in R. rewrite (response_pool _ _ _ R). apply filter_In in He. destruct He as [He Sh]. apply (in_mget _ _ _ So) in He. destruct (i_pools _ S _ _ He) as (-> & _).
        split; [exact He|]. split; [left; exact Ei|]. split; [exact Sh|exact R].
      * intros (G & _ & Sh & R). exists ((pl_id (pv_pool v), 0), pv_pool v). split; [|exact R]. apply filter_In. split; [apply (in_mget _ _ _ So); exact G|exact Sh].
  - pose proof (i_plidx_sorted _ S) as So. assert (Sm : msorted (mprefix (st_plidx s) i)) by (apply msorted_filter; exact So).
    assert (K : forall k u, In (k, u) (mprefix (st_plidx s) i) -> exists p, get_pool s (snd k) = Some p /\ pl_pair p = i /\ pl_id p = snd k /\ fst k = i).
    { intros [k1 k2] u He. apply mprefix_In in He. destruct He as [He Ek]. cbn [fst snd] in *. subst k1. apply (in_mget _ _ _ So) in He. destruct u. destruct (i_plidx _ S _ _ He) as (p & G & P).
      exists p. split; [exact G|]. split; [exact P|]. split; [|reflexivity]. destruct (i_pools _ S _ _ G) as (E & _). injection E as E. symmetry. exact E. }
    destruct (all_resp_in (fun e => do p <- get_pool s (snd (fst e)); pool_response s p) (filter (fun e => shown dis (get_pool s (snd (fst e)))) (mprefix (st_plidx s) i))) as (all & E & I & Srt).
    { intros [k u] He. apply filter_In in He. destruct He as [He Sh]. destruct (K _ _ He) as (p & G & P & Pi & _). cbn [fst] in *. rewrite G in *. apply H; [rewrite Pi; exact G|right; exact P|exact Sh]. }
    exists all. split; [apply paginate_lists; [exact Sm|exact E]|]. split.
    + apply Srt; [|apply msorted_filter; exact Sm]. intros [k u] [k' u'] v v' He He' L R R'. apply filter_In in He, He'. destruct He as [He _], He' as [He' _].
      destruct (K _ _ He) as (p & G & P & Pi & F). destruct (K _ _ He') as (p' & G' & P' & Pi' & F'). cbn [fst] in R, R'. rewrite G in R. rewrite G' in R'. rewrite (response_pool _ _ _ R), (response_pool _ _ _ R'), Pi, Pi'.
      exact (kv_lt_fst (k, u) (k', u') i F F' L).
    + intros v. rewrite I. split.
      * intros ([k u] & He & R). apply filter_In in He. destruct He as [He Sh]. destruct (K _ _ He) as (p & G & P & Pi & F). cbn [fst] in *. rewrite G in *. rewrite (response_pool _ _ _ R).
        split; [rewrite Pi; exact G|]. split; [right; exact P|]. split; [exact Sh|exact R].
      * intros (G & [Z0|P] & Sh & R); [contradiction|]. exists ((i, pl_id (pv_pool v)), tt). cbn [fst snd]. rewrite G. split; [|exact R].
        apply filter_In. cbn [fst snd]. rewrite G. split; [|exact Sh]. apply mprefix_In. split; [|reflexivity]. apply (in_mget _ _ _ So). destruct (i_pools _ S _ _ G) as (_ & _ & _ & _ & _ & Y). rewrite P in Y. exact Y.
Qed.

(** Pairs. *)
Lemma all_pairs_listed s rank x : str s -> exists all, lists (q_pairs s rank x []) (map Some all) /\ StronglySorted (fun a b => pr_id a < pr_id b) all /\
  forall p, In p all <-> get_pair s (pr_id p) = Some p.
Proof.
  intros S. pose proof (i_pairs_sorted _ S) as So. exists (map snd (st_pairs s)). split; [|split].
  - cbn [q_pairs]. apply paginate_lists; [exact So|]. assert (F : forall l : amap pair, filter (fun _ => true) l = l) by (induction l as [|e l IH]; cbn; [reflexivity|rewrite IH; reflexivity]). rewrite F, map_map.
    apply (all_total (fun e => Some (snd e))).
  - apply sorted_map; [exact So|]. intros [k a] [k' b] Ha Hb L. apply (in_mget _ _ _ So) in Ha, Hb. destruct (i_pairs _ S _ _ Ha) as (-> & _). destruct (i_pairs _ S _ _ Hb) as (-> & _).
    unfold kv_lt, key_ltb in L. cbn [fst snd] in *. lia.
  - intros p. rewrite in_map_iff. split.
    + intros ([k p'] & <- & H). cbn [snd]. apply (in_mget _ _ _ So) in H. destruct (i_pairs _ S _ _ H) as (-> & _). exact H.
    + intros H. exists ((pr_id p, 0), p). split; [reflexivity|]. apply (in_mget _ _ _ So). exact H.
Qed.
Lemma listed_nodup {X} (m : amap X) bs (g : pair -> key) : msorted m -> map g bs = map fst m -> NoDup bs.
Proof. intros S E. apply (NoDup_map_inv g). rewrite E. apply msorted_NoDup. exact S. Qed.
Lemma through_pairs rank s x a (m : amap unit) : str s -> idx_ok rank s x -> (forall k u, In (k, u) m -> In (k, u) (x_lookup x a)) -> msorted m ->
  exists bs, map (fun e => get_pair s (snd (fst e))) m = map Some bs /\ map pr_id bs = map (fun e => snd (fst e)) m /\ Forall (fun p => get_pair s (pr_id p) = Some p) bs.
Proof.
  intros S I H. induction m as [|e m IH]; intros Sm.
  - exists []. split; [reflexivity|]. split; [reflexivity|constructor].
  - inversion Sm as [|? ? S1 S2]; subst. destruct (IH (fun k u Hk => H k u (or_intror Hk)) S1) as (bs & E1 & E2 & E3). destruct e as [k u].
    specialize (H k u (or_introl eq_refl)). apply (in_mget _ _ _ (ix_sorted _ _ _ I a)) in H. destruct u. apply (ix_lookup _ _ _ I) in H. destruct H as (b & p & -> & G & T).
    exists (p :: bs). cbn [map fst snd]. rewrite G, E1, E2. split; [reflexivity|]. split; [reflexivity|]. constructor; assumption.
Qed.
Lemma filter_all {X} (l : list X) : filter (fun _ => true) l = l.
Proof. induction l as [|e l IH]; cbn; [reflexivity|rewrite IH; reflexivity]. Qed.
Lemma map_some_in {B} (bs : list B) b : In (Some b) (map Some bs) <-> In b bs.
Proof. rewrite in_map_iff. split; [intros (c & E & H); injection E as <-; exact H|intros H; exists b; split; [reflexivity|exact H]]. Qed.
Lemma nodup_some {B} (bs : list (option B)) cs : bs = map Some cs -> NoDup bs -> NoDup cs.
Proof. intros ->. apply NoDup_map_inv. Qed.
Lemma one_denom_listed rank s x a : (forall c d, rank c = rank d -> c = d) -> str s -> idx_ok rank s x -> exists all, lists (q_pairs s rank x [a]) (map Some all) /\ NoDup all /\
  forall p, In p all <-> get_pair s (pr_id p) = Some p /\ (pr_base p = a \/ pr_quote p = a).
Proof.
  intros Inj S I. pose proof (ix_sorted _ _ _ I a) as So. destruct (through_pairs rank s x a (x_lookup x a) S I (fun _ _ H => H) So) as (bs & E1 & E2 & E3).
  assert (Mem : forall p, In p bs <-> get_pair s (pr_id p) = Some p /\ (pr_base p = a \/ pr_quote p = a)).
  { intros p. rewrite <- (map_some_in bs p), <- E1, in_map_iff. split.
    - intros ([k []] & G & H). apply (in_mget _ _ _ So) in H. apply (ix_lookup _ _ _ I) in H. destruct H as (b & q & -> & Gq & T). cbn [fst snd] in G. rewrite Gq in G. injection G as ->.
      split; [exact Gq|]. destruct T as [[T _]|[_ T]]; [left|right]; exact T.
    - intros [G T]. assert (Tr : exists b, trades p a b) by (destruct T as [T|T]; [exists (pr_quote p); left|exists (pr_base p); right]; auto).
      destruct Tr as (b & Tr). exists ((rank b, pr_id p), tt). split; [exact G|]. apply (in_mget _ _ _ So). apply (ix_lookup _ _ _ I). exists b, p. auto. }
  exists bs. split; [|split; [|exact Mem]].
  - cbn [q_pairs]. rewrite <- E1. apply paginate_lists; [exact So|]. rewrite filter_all. apply (all_total (fun e => get_pair s (snd (fst e)))).
  - apply (NoDup_map_inv pr_id). rewrite E2. assert (U : forall e e', In e (x_lookup x a) -> In e' (x_lookup x a) -> snd (fst e) = snd (fst e') -> fst e = fst e').
    { intros [k []] [k' []] H H' E. cbn [fst] in *. apply (in_mget _ _ _ So) in H, H'. apply (ix_lookup _ _ _ I) in H, H'. destruct H as (b & p & -> & G & T), H' as (b' & p' & -> & G' & T'). cbn [snd] in E.
      rewrite E in G. rewrite G in G'. injection G' as <-. destruct (i_pairs _ S _ _ G) as (_ & _ & N & _). unfold trades in *. assert (b = b') by (destruct T as [[]|[]], T' as [[]|[]]; congruence). congruence. }
    pose proof (msorted_NoDup _ So) as Nd. clear -U Nd. induction (x_lookup x a) as [|e l IH]; cbn [map]; [constructor|]. cbn [map] in Nd. inversion Nd as [|? ? N1 N2]; subst. constructor.
    + intros H. apply in_map_iff in H. destruct H as (e' & E & H). apply N1. apply in_map_iff. exists e'. split; [|exact H]. symmetry. apply U; [left; reflexivity|right; exact H|symmetry; exact E].
    + apply IH; [|exact N2]. intros y y' Hy Hy'. apply U; right; assumption.
Qed.
Lemma two_denoms_listed rank s x a b : (forall c d, rank c = rank d -> c = d) -> str s -> idx_ok rank s x -> exists all, lists (q_pairs s rank x [a; b]) (map Some all) /\ StronglySorted (fun p q => pr_id p < pr_id q) all /\
  forall p, In p all <-> get_pair s (pr_id p) = Some p /\ trades p a b.
Proof.
  intros Inj S I. pose proof (ix_sorted _ _ _ I a) as So0. assert (So : msorted (mprefix (x_lookup x a) (rank b))) by (apply msorted_filter; exact So0).
  destruct (through_pairs rank s x a (mprefix (x_lookup x a) (rank b)) S I (fun k u H => proj1 (proj1 (mprefix_In _ _ _) H)) So) as (bs & E1 & E2 & E3).
  assert (Mem : forall p, In p bs <-> get_pair s (pr_id p) = Some p /\ trades p a b).
  { intros p. rewrite <- (map_some_in bs p), <- E1, in_map_iff. split.
    - intros ([k []] & G & H). apply mprefix_In in H. destruct H as [H Ek]. apply (in_mget _ _ _ So0) in H. apply (ix_lookup _ _ _ I) in H. destruct H as (c & q & -> & Gq & T). cbn [fst snd] in G, Ek. rewrite Gq in G. injection G as ->.
      apply Inj in Ek. subst c. split; [exact Gq|exact T].
    - intros [G T]. exists ((rank b, pr_id p), tt). split; [exact G|]. apply mprefix_In. split; [|reflexivity]. apply (in_mget _ _ _ So0). apply (ix_lookup _ _ _ I). exists b, p. auto. }
  exists bs. split; [|split; [|exact Mem]].
  - cbn [q_pairs]. rewrite <- E1. apply paginate_lists; [exact So|]. rewrite filter_all. apply (all_total (fun e => get_pair s (snd (fst e)))).
  - assert (X : map (fun p => (rank b, pr_id p)) bs = map fst (mprefix (x_lookup x a) (rank b))).
    { rewrite <- (map_map pr_id (fun j => (rank b, j))), E2, map_map. apply map_ext_in. intros e He. apply mprefix_In in He. destruct He as [_ He]. destruct e as [[k1 k2] u]. cbn in *. congruence. }
    pose proof (sorted_fst _ (fun p => (rank b, pr_id p)) bs So X) as Y. clear -Y. induction Y as [|p bs Y IH F]; constructor; [exact IH|]. rewrite Forall_forall in *. intros q Hq. specialize (F q Hq). unfold key_ltb in F. cbn [fst snd] in F. lia.
Qed.
