(** The order in which the proportional split serves orders of one price and batch (C81): proofs. *)
From Verif Require Import Base Dec DecProofs OrderModel MatchModel MatchSpec FairSpec KeyedProofs OrderProofs MatchProofs MatchLoopProofs MatchBookProofs MatchTop ShareProofs.
From Coq Require Import Permutation Sorted.

(** ** sorting *)
Lemma priority_first a b : owned a -> owned b -> has_priority a b = true <-> goes_first a b.
Proof.
  unfold owned, has_priority, goes_first. intros A B. destruct (o_kind a) as [|i|i]; [congruence| |]; (destruct (o_kind b) as [|j|j]; [congruence| |]);
    (destruct (Z.eqb_spec (o_amt a) (o_amt b)) as [E|E]; rewrite ?Z.ltb_lt; split; intros H; try lia; try tauto; try discriminate H; (right; split; [exact E|exact Logic.I])).
Qed.
Lemma first_asym a b : goes_first a b -> ~ goes_first b a.
Proof. unfold goes_first. destruct (o_kind a), (o_kind b); lia. Qed.
(** [a] before [b], [c] not before [b]: [c] not before [a]. *)
Lemma first_weak a b c : owned a -> owned b -> owned c -> goes_first a b -> ~ goes_first c b -> ~ goes_first c a.
Proof. unfold goes_first, owned. intros A B C. destruct (o_kind a), (o_kind b), (o_kind c); try congruence; lia. Qed.

Definition nbefore (h : heap) (p q : nat) : Prop := ~ goes_first (get h q) (get h p).
Definition all_owned (h : heap) (ps : list nat) : Prop := forall p, In p ps -> owned (get h p).

Lemma insert_sorted_ok h p : forall l, owned (get h p) -> all_owned h l -> StronglySorted (nbefore h) l -> StronglySorted (nbefore h) (insert_sorted h p l).
Proof.
  induction l as [|q l IH]; intros Hp Hl HS; cbn [insert_sorted]; [constructor; constructor|].
  apply StronglySorted_inv in HS. destruct HS as [HS HF]. assert (Hq : owned (get h q)) by (apply Hl; left; reflexivity). assert (Hl' : all_owned h l) by (intros x Hx; apply Hl; right; exact Hx).
  rewrite Forall_forall in HF. destruct (has_priority (get h p) (get h q)) eqn:E.
  - apply priority_first in E; [|exact Hp|exact Hq]. constructor; [constructor; [exact HS|apply Forall_forall; exact HF]|]. constructor; [exact (first_asym _ _ E)|].
    apply Forall_forall. intros x Hx. exact (first_weak _ _ _ Hp Hq (Hl' x Hx) E (HF x Hx)).
  - constructor; [apply IH; assumption|]. apply Forall_forall. intros x Hx. apply (Permutation_in _ (insert_sorted_perm h p l)) in Hx. destruct Hx as [<-|Hx]; [|apply HF; exact Hx].
    intros X. apply priority_first in X; [congruence|exact Hp|exact Hq].
Qed.
Lemma sort_orders_sorted h ps : all_owned h ps -> StronglySorted (nbefore h) (sort_orders h ps).
Proof.
  intros Ho. unfold sort_orders. assert (G : forall qs acc, all_owned h qs -> all_owned h acc -> StronglySorted (nbefore h) acc -> StronglySorted (nbefore h) (fold_left (fun acc p => insert_sorted h p acc) qs acc)).
  { induction qs as [|q qs IH]; intros acc Hq Ha HS; [exact HS|]. cbn [fold_left]. apply IH; [intros x Hx; apply Hq; right; exact Hx| |apply insert_sorted_ok; [apply Hq; left; reflexivity|exact Ha|exact HS]].
    intros x Hx. apply (Permutation_in _ (insert_sorted_perm h q acc)) in Hx. destruct Hx as [<-|Hx]; [apply Hq; left; reflexivity|exact (Ha x Hx)]. }
  apply G; [exact Ho|intros x []|constructor].
Qed.

Definition precedes (l : list nat) (i j : nat) : Prop := exists A B C, l = A ++ i :: B ++ j :: C.
Lemma two_in l i j : In i l -> In j l -> i <> j -> precedes l i j \/ precedes l j i.
Proof.
  intros Hi Hj N. destruct (in_split _ _ Hi) as (A & B & ->). apply in_app_iff in Hj. destruct Hj as [Hj|[Hj|Hj]]; [right|congruence|left]; destruct (in_split _ _ Hj) as (C & D & ->).
  - exists C, D, B. rewrite <- app_assoc. reflexivity.
  - exists A, C, D. reflexivity.
Qed.
Lemma sorted_precedes h l i j : StronglySorted (nbefore h) l -> precedes l i j -> nbefore h i j.
Proof.
  intros HS (A & B & C & ->). induction A as [|x A IH]; cbn [app] in HS; apply StronglySorted_inv in HS; destruct HS as [HS HF]; [|exact (IH HS)].
  rewrite Forall_forall in HF. apply HF. apply in_app_iff. right. left. reflexivity.
Qed.
Lemma sort_precedes h ps i j : all_owned h ps -> In i ps -> In j ps -> goes_first (get h i) (get h j) -> precedes (sort_orders h ps) i j.
Proof.
  intros Ho Hi Hj F. pose proof (Permutation_sym (sort_orders_perm h ps)) as P. destruct (two_in (sort_orders h ps) i j) as [X|X]; [exact (Permutation_in _ P Hi)|exact (Permutation_in _ P Hj)| |exact X|].
  - intros ->. exact (first_asym _ _ F F).
  - exfalso. exact (sorted_precedes h _ _ _ (sort_orders_sorted h ps Ho) X F).
Qed.

(** ** the split *)
Lemma second_share_at h price i mi B : forall A rem, exists A' mi' B', second_share h price rem (A ++ (i, mi) :: B) = A' ++ (i, mi') :: B' /\ map fst A' = map fst A /\ map fst B' = map fst B /\
  (opt_or0 mi' = matchable_amount (get h i) price \/ B' = B).
Proof.
  induction A as [|[p m] A IH]; intros rem; cbn [app second_share].
  - destruct (Z.eqb_spec rem 0) as [E|E]; [exists [], mi, B; auto|]. exists []. eexists. eexists. split; [reflexivity|]. split; [reflexivity|].
    set (ad := Z.min rem (matchable_amount (get h i) price - opt_or0 mi)).
    assert (F : forall l r, map fst (second_share h price r l) = map fst l).
    { clear. induction l as [|[p m] l IH]; intros r; [reflexivity|]. cbn [second_share]. destruct (r =? 0); [reflexivity|]. cbn [map]. rewrite IH. reflexivity. }
    split; [apply F|]. cbn [opt_or0]. destruct (Z.eq_dec ad rem) as [Ea|Ea]; [right; rewrite Ea, Z.sub_diag; destruct B as [|[q n] B]; reflexivity|left; unfold ad in *; lia].
  - destruct (Z.eqb_spec rem 0) as [E|E]; [exists ((p, m) :: A), mi, B; auto|].
    destruct (IH (rem - Z.min rem (matchable_amount (get h p) price - opt_or0 m))) as (A' & mi' & B' & E1 & E2 & E3 & E4). rewrite E1.
    exists ((p, Some (opt_or0 m + Z.min rem (matchable_amount (get h p) price - opt_or0 m))) :: A'), mi', B'. split; [reflexivity|]. split; [cbn [map]; rewrite E2; reflexivity|]. split; [exact E3|exact E4].
Qed.

Lemma prop_share_amt a b total amt : 0 <= total -> 0 <= amt -> b <= a -> prop_share b total amt <= prop_share a total amt.
Proof.
  intros Ht Ha Hb. pose proof P18_pos as H18. unfold prop_share. destruct (Z.eq_dec total 0) as [->|Hn]; [rewrite !Zdiv_0_r; lia|].
  apply Z.div_le_mono; [lia|]. apply Z.mul_le_mono_nonneg_r; [lia|]. apply Z.div_le_mono; [lia|nia].
Qed.

Lemma share_ok_mono h price i mi j mj : 0 < price -> o_dir (get h i) = o_dir (get h j) -> 0 <= opt_or0 mj <= opt_or0 mi -> share_ok h price (j, mj) = true -> share_ok h price (i, mi) = true.
Proof.
  intros Hp Hd Hm H. unfold share_ok in *. cbn [fst snd] in *. rewrite Hd. apply andb_true_iff in H. destruct H as [H1 H2]. destruct (Z.eqb_spec (opt_or0 mj) 0) as [E|E]; [discriminate H1|].
  apply andb_true_iff. split; [destruct (Z.eqb_spec (opt_or0 mi) 0); [lia|reflexivity]|]. apply orb_true_iff in H2. apply orb_true_iff. destruct H2 as [H2|H2]; [left; exact H2|right]. pose proof P18_pos as H18.
  apply Z.ltb_lt in H2. apply Z.ltb_lt. unfold dmul_int in *. rewrite dtrunc_nn in * by nia. assert (price * opt_or0 mj / P18 <= price * opt_or0 mi / P18) by (apply Z.div_le_mono; nia). lia.
Qed.

Section Fair.
  Variable iter : list (nat * Z) -> list (nat * Z).
  Hypothesis Hiter : is_perm_iter iter.

  Lemma phase_got h ps price h' qd a q : phase h ps price h' qd a -> 0 <= got h h' q.
  Proof.
    intros (tr & T & _). unfold got. destruct (trace_filled_by h tr h' q T) as (HF & _ & _ & _ & _ & _ & _ & Eo & _). rewrite Eo.
    assert (0 <= sumZ (map fst (fills_of q tr))); [|lia]. apply sumZ_map_nonneg. intros x Hx. rewrite Forall_forall in HF. specialize (HF x Hx). lia.
  Qed.

  Lemma dist_orders_fair price d i j : 0 < price -> forall fuel h ps amt h' qd, wf_heap h -> ptrs_ok h ps d price -> (length ps < fuel)%nat -> 0 <= amt ->
    precedes ps i j -> o_amt (get h j) <= o_amt (get h i) -> matchable_amount (get h j) price <= matchable_amount (get h i) price ->
    dist_orders iter fuel h ps amt price = Some (h', qd) -> got h h' j <= got h h' i.
  Proof.
    intros Hpr. induction fuel as [|fuel IH]; intros h ps amt h' qd Hwf Hok Hfuel Hamt Hpre Ha Hm E0; [lia|]. pose proof Hok as Hok0. destruct Hok as [Hnd Hok].
    assert (Hlt : forall p, In p ps -> (p < length h)%nat) by (intros p Hp; apply Hok; assumption).
    (* dropping orders: the later one goes first *)
    assert (Drop : forall qs, incl qs ps -> NoDup qs -> (length qs < fuel)%nat -> dist_orders iter fuel h qs amt price = Some (h', qd) -> (In j qs -> precedes qs i j) -> got h h' j <= got h h' i).
    { intros qs Hi Hn Hl E Hx. assert (Hokq : ptrs_ok h qs d price) by (apply (ptrs_ok_sub h ps); assumption).
      destruct (in_dec Nat.eq_dec j qs) as [Hj|Hj]; [exact (IH h qs amt h' qd Hwf Hokq Hl Hamt (Hx Hj) Ha Hm E)|].
      destruct (dist_orders_ok iter Hiter price d Hpr fuel h qs amt Hwf Hokq Hl Hamt) as (h2 & qd2 & a & E2 & P & _). rewrite E in E2. injection E2 as <- <-.
      pose proof (phase_got _ _ _ _ _ _ i P) as X. unfold got at 1. rewrite (phase_other _ _ _ _ _ _ j P Hj). lia. }
    cbn [dist_orders] in E0. set (total := total_amount h ps) in *. set (l1 := map (fun p => (p, first_share h price amt total p)) ps) in *.
    assert (Htot : forall p, In p ps -> o_amt (get h p) <= total).
    { intros p Hp. unfold total. rewrite total_amount_sum. apply (sumZ_in_le (fun p => o_amt (get h p))); [|assumption]. intros r Hr. destruct (Hwf r (Hlt r Hr)) as (_ & H & _). lia. }
    assert (Hl1 : forall p m, In (p, m) l1 -> 0 <= opt_or0 m <= matchable_amount (get h p) price).
    { intros p m Hin. unfold l1 in Hin. apply in_map_iff in Hin. destruct Hin as (q & E & Hq). injection E as -> <-. apply first_share_bounds; auto. }
    assert (Hs1 : alloc_sum l1 <= amt) by (apply first_shares_sum; auto).
    assert (Hf1 : map fst l1 = ps) by (unfold l1; rewrite map_map; cbn; apply map_id).
    set (mt := fold_left (fun acc pm => acc + opt_or0 (snd pm)) l1 0) in *.
    assert (Emt : mt = alloc_sum l1) by (unfold mt; rewrite fold_left_sum; unfold alloc_sum; lia).
    destruct (second_share_spec h price l1 (amt - mt) ltac:(lia) Hl1) as (F2 & B2 & _).
    pose proof (second_share_ge h price l1 (amt - mt) ltac:(lia) Hl1) as G2. rewrite Hf1 in G2.
    destruct Hpre as (A & B & C & Eps). set (fs := first_share h price amt total) in *.
    assert (El1 : l1 = map (fun p => (p, fs p)) A ++ (i, fs i) :: map (fun p => (p, fs p)) (B ++ j :: C)) by (unfold l1; rewrite Eps, map_app; reflexivity).
    destruct (second_share_at h price i (fs i) (map (fun p => (p, fs p)) (B ++ j :: C)) (map (fun p => (p, fs p)) A) (amt - mt)) as (A' & mi & R' & E2 & EA & ER & Alt). rewrite <- El1 in E2.
    set (l2 := second_share h price (amt - mt) l1) in *. rewrite Hf1 in F2.
    (* the entry of j *)
    assert (Hj : exists B' mj C', R' = B' ++ (j, mj) :: C' /\ (opt_or0 mj = opt_or0 (fs j) \/ opt_or0 mi = matchable_amount (get h i) price)).
    { rewrite map_map, map_id in ER. destruct Alt as [Ef|Es].
      - assert (X : In j (map fst R')) by (rewrite ER; apply in_app_iff; right; left; reflexivity). apply in_map_iff in X. destruct X as ([q mj] & Eq & X). cbn in Eq. subst q. destruct (in_split _ _ X) as (B' & C' & ->). exists B', mj, C'. auto.
      - exists (map (fun p => (p, fs p)) B), (fs j), (map (fun p => (p, fs p)) C). split; [rewrite Es, map_app; reflexivity|left; reflexivity]. }
    destruct Hj as (B' & mj & C' & -> & Hj).
    assert (Ii : In (i, mi) l2) by (rewrite E2; apply in_app_iff; right; left; reflexivity).
    assert (Ij : In (j, mj) l2) by (rewrite E2; apply in_app_iff; right; right; apply in_app_iff; right; left; reflexivity).
    assert (Pi : In i ps) by (rewrite Eps; apply in_app_iff; right; left; reflexivity). assert (Pj : In j ps) by (rewrite Eps; apply in_app_iff; right; right; apply in_app_iff; right; left; reflexivity).
    assert (Hge : opt_or0 (fs i) <= opt_or0 mi).
    { destruct (G2 i mi Hnd Ii) as (m & Hmi & Hle). unfold l1 in Hmi. apply in_map_iff in Hmi. destruct Hmi as (q & E & Hq). injection E as -> <-. exact Hle. }
    assert (Hij : 0 <= opt_or0 mj <= opt_or0 mi).
    { split; [apply (B2 _ _ Ij)|]. destruct Hj as [Hj|Hj]; [|rewrite Hj; pose proof (B2 _ _ Ij); lia]. rewrite Hj. etransitivity; [|exact Hge].
      unfold fs. rewrite (first_share_val h price amt total i Hwf Hpr (Hlt i Pi) Hamt (Htot i Pi)), (first_share_val h price amt total j Hwf Hpr (Hlt j Pj) Hamt (Htot j Pj)).
      assert (T0 : 0 <= total) by (pose proof (Htot i Pi); destruct (Hwf i (Hlt i Pi)) as (_ & HX & _); lia). pose proof (prop_share_amt _ _ total amt T0 Hamt Ha). lia. }
    assert (Hdir : o_dir (get h i) = o_dir (get h j)) by (destruct (Hok i Pi) as (_ & X & _); destruct (Hok j Pj) as (_ & Y & _); congruence).
    assert (Hnd2 : NoDup (map fst l2)) by (rewrite F2; assumption). assert (Hin2 : forall p m, In (p, m) l2 -> In p ps) by (intros p m X; rewrite <- F2; apply in_map_iff; exists (p, m); auto).
    assert (Hlen2 : length l2 = length ps) by (rewrite <- F2, map_length; reflexivity).
    destruct (filter (fun pm => negb (share_ok h price pm)) l2) as [|u us] eqn:Eun.
    - set (l3 := map (fun pm => (fst pm, opt_or0 (snd pm))) l2) in *. assert (F3 : map fst l3 = ps) by (unfold l3; rewrite map_map; cbn; exact F2).
      assert (Hp3 : Permutation (iter l3) l3) by apply Hiter.
      destruct (fill_list_open price (iter l3) h h' qd) as [_ X]; [| |exact E0|].
      { eapply Permutation_NoDup; [apply Permutation_map, Permutation_sym; exact Hp3|]. rewrite F3. assumption. }
      { intros p m Hin. apply (Permutation_in _ Hp3) in Hin. unfold l3 in Hin. apply in_map_iff in Hin. destruct Hin as ([q n] & Eq & Hq). cbn in Eq. injection Eq as -> <-. eauto. }
      unfold got. rewrite (X i (opt_or0 mi)), (X j (opt_or0 mj)); [lia| |]; apply (Permutation_in _ (Permutation_sym Hp3)); unfold l3; apply in_map_iff; [exists (j, mj)|exists (i, mi)]; auto.
    - assert (Hu : In u l2 /\ share_ok h price u = false).
      { assert (In u (filter (fun pm => negb (share_ok h price pm)) l2)) as Hu by (rewrite Eun; left; reflexivity). apply filter_In in Hu. destruct Hu as [Hu1 Hu2]. split; [assumption|]. destruct (share_ok h price u); [discriminate|reflexivity]. }
      destruct Hu as [Hu0 Hu1]. destruct (filter (share_ok h price) l2) as [|w ws] eqn:Em.
      + assert (Hps : ps <> []) by (intros X; rewrite X in Pi; exact Pi). pose proof (removelast_length ps Hps) as Hrl.
        apply (Drop (removelast ps)); [apply removelast_incl|apply removelast_NoDup; assumption|lia|exact E0|]. intros Hjr.
        destruct C as [|c C].
        * exfalso. rewrite Eps in Hjr, Hnd. replace (A ++ i :: B ++ [j]) with ((A ++ i :: B) ++ [j]) in Hjr, Hnd by (rewrite <- app_assoc; reflexivity). rewrite removelast_last in Hjr. apply NoDup_remove_2 in Hnd. rewrite app_nil_r in Hnd. exact (Hnd Hjr).
        * exists A, B, (removelast (c :: C)). rewrite Eps. replace (A ++ i :: B ++ j :: c :: C) with ((A ++ i :: B ++ [j]) ++ c :: C) by (rewrite <- !app_assoc; cbn; rewrite <- app_assoc; reflexivity).
          rewrite removelast_app by discriminate. rewrite <- !app_assoc. cbn [app]. rewrite <- app_assoc. reflexivity.
      + rewrite <- Em in E0. apply (Drop (map fst (filter (share_ok h price) l2))); [| | |exact E0|].
        * intros x Hx. apply in_map_iff in Hx. destruct Hx as ([q n] & <- & Hx). apply filter_In in Hx. exact (Hin2 _ _ (proj1 Hx)).
        * clear -Hnd2. induction l2 as [|x l IHl]; [constructor|]. cbn [map] in Hnd2. apply NoDup_cons_iff in Hnd2. destruct Hnd2 as [N1 N2]. cbn [filter]. destruct (share_ok h price x); [|exact (IHl N2)].
          cbn [map]. constructor; [|exact (IHl N2)]. intros X. apply N1. apply in_map_iff in X. destruct X as (y & Ey & X). apply filter_In in X. apply in_map_iff. exists y. split; [exact Ey|apply X].
        * rewrite map_length. assert (length (filter (share_ok h price) l2) < length l2)%nat; [|lia]. clear -Hu0 Hu1. induction l2 as [|x l IHl]; [destruct Hu0|]. cbn [filter length].
          assert (L : forall (f : nat * option Z -> bool) l, (length (filter f l) <= length l)%nat) by (clear; intros f l; induction l as [|y l IH]; [apply Nat.le_refl|]; cbn [filter]; destruct (f y); cbn [length]; lia).
          destruct Hu0 as [->|Hu0]; [rewrite Hu1; pose proof (L (share_ok h price) l); lia|]. specialize (IHl Hu0). destruct (share_ok h price x); cbn [length]; lia.
        * intros Hjf. assert (Sj : share_ok h price (j, mj) = true).
          { apply in_map_iff in Hjf. destruct Hjf as ([q n] & Eq & Hx). cbn in Eq. subst q. apply filter_In in Hx. destruct Hx as [Hx1 Hx2].
            assert (n = mj); [|congruence]. clear -Hnd2 Hx1 Ij. induction l2 as [|x l IHl]; [destruct Ij|]. cbn [map] in Hnd2. apply NoDup_cons_iff in Hnd2. destruct Hnd2 as [N1 N2].
            destruct Ij as [->|Ij]; destruct Hx1 as [X|Hx1]; [congruence| | |exact (IHl Ij N2 Hx1)]; exfalso; apply N1; [cbn|subst x; cbn]; apply in_map_iff; eexists; (split; [|eassumption]); reflexivity. }
          pose proof (share_ok_mono h price i mi j mj Hpr Hdir Hij Sj) as Si. rewrite E2, filter_app. cbn [filter]. rewrite Si, filter_app. cbn [filter]. rewrite Sj.
          exists (map fst (filter (share_ok h price) A')), (map fst (filter (share_ok h price) B')), (map fst (filter (share_ok h price) C')). rewrite map_app. cbn [map fst]. rewrite map_app. reflexivity.
  Qed.

  Lemma fulfill_got price d : 0 < price -> forall ps h h' qd, wf_heap h -> ptrs_ok h ps d price -> fulfill_orders h ps price = Some (h', qd) ->
    forall q, In q ps -> got h h' q = matchable_amount (get h q) price.
  Proof.
    intros Hpr. induction ps as [|p ps IH]; intros h h' qd Hwf Hok E q Hq; [destruct Hq|]. pose proof Hok as Hok0. destruct Hok as [Hnd Hok]. apply NoDup_cons_iff in Hnd. destruct Hnd as [N1 N2].
    cbn [fulfill_orders] in E. destruct (Hok p (or_introl eq_refl)) as (Lp & Dp & Ap). pose proof (matchable_le_open (get h p) price (Hwf p Lp) Hpr) as Hm.
    assert (Hok1 : ptrs_ok h [p] d price) by (apply (ptrs_ok_sub h (p :: ps)); [exact Hok0|intros x [<-|[]]; left; reflexivity|constructor; [intros []|constructor]]).
    destruct (fulfill_orders_ok price d Hpr [p] h Hwf Hok1) as (h1 & d1 & E1 & P1 & _). cbn [fulfill_orders] in E1. destruct (fulfill_order h p price) as [[hx dx]|] eqn:Ef; [|discriminate E]. injection E1 as -> _.
    destruct (fulfill_orders h1 ps price) as [[h2 d2]|] eqn:E2; [|discriminate E]. injection E as <- _.
    assert (Hok2 : ptrs_ok h1 ps d price) by (apply (ptrs_ok_static h); [exact (phase_static _ _ _ _ _ _ P1)|apply (ptrs_ok_sub h (p :: ps)); [exact Hok0|intros x X; right; exact X|exact N2]]).
    destruct (fulfill_orders_ok price d Hpr ps h1 (phase_wf _ _ _ _ _ _ P1 Hwf) Hok2) as (h2' & d2' & E2' & P2 & _). rewrite E2 in E2'. injection E2' as <- _.
    destruct (Nat.eq_dec q p) as [->|Nq].
    - unfold got. rewrite (phase_other _ _ _ _ _ _ p P2 N1). unfold fulfill_order in Ef. destruct (Z.ltb_spec 0 (matchable_amount (get h p) price)) as [Hpos|Hz]; [|injection Ef as <- _; lia].
      unfold fill_order in Ef. rewrite Z.ltb_irrefl in Ef. injection Ef as <- _. rewrite get_upd_same by exact Lp. cbn. lia.
    - destruct Hq as [->|Hq]; [congruence|]. pose proof (IH h1 h2 d2 (phase_wf _ _ _ _ _ _ P1 Hwf) Hok2 E2 q Hq) as X. unfold got in *.
      rewrite (phase_other _ _ _ _ _ _ q P1) in X by (intros [Y|[]]; congruence). exact X.
  Qed.

  (** groups: [i] and [j] are in the same one *)
  Lemma dist_groups_fair price d i j : 0 < price -> forall gs h amt h' qd, wf_heap h -> ptrs_ok h (flat_map snd gs) d price -> 0 <= amt ->
    (exists g, In g gs /\ In i (snd g) /\ In j (snd g)) -> all_owned h (flat_map snd gs) -> goes_first (get h i) (get h j) -> matchable_amount (get h j) price <= matchable_amount (get h i) price ->
    dist_groups iter h gs amt price = Some (h', qd) -> got h h' j <= got h h' i.
  Proof.
    intros Hpr. induction gs as [|[b ps] gs IH]; intros h amt h' qd Hwf Hok Hamt Hg Ho Hf Hm E; [destruct Hg as (g & [] & _)|].
    cbn [flat_map snd] in *. destruct (ptrs_ok_app _ _ _ _ _ Hok) as (Hok1 & Hok2 & Hdisj). cbn [dist_groups] in E. set (oa := total_matchable h ps price) in *.
    assert (Hamt' : o_amt (get h j) <= o_amt (get h i)) by (unfold goes_first in Hf; lia).
    assert (Ho2 : all_owned h (flat_map snd gs)) by (intros x Hx; apply Ho, in_app_iff; right; exact Hx).
    assert (Later : ~ (In i ps /\ In j ps) -> exists g, In g gs /\ In i (snd g) /\ In j (snd g)).
    { intros N. destruct Hg as (g & [<-|Hg] & X); [exfalso; exact (N X)|]. exists g. split; [exact Hg|exact X]. }
    assert (Nin : forall g, In g gs -> forall q, In q (snd g) -> ~ In q ps) by (intros g Hgs q Hq; apply Hdisj, in_flat_map; exists g; auto).
    destruct (Z.eqb_spec oa 0) as [Ez|Ez].
    - (* nothing to fill in this group *)
      destruct (in_dec Nat.eq_dec i ps) as [Hi|Hi].
      + assert (Hj : In j ps) by (destruct Hg as (g & [<-|Hg] & X1 & X2); [exact X2|exfalso; exact (Nin g Hg i X1 Hi)]).
        destruct (dist_groups_ok iter Hiter price d Hpr gs h amt Hwf Hok2 Hamt) as (h2 & qd2 & a & E2 & (P & _) & _). rewrite E in E2. injection E2 as <- _.
        unfold got. rewrite (phase_other _ _ _ _ _ _ i P), (phase_other _ _ _ _ _ _ j P); [lia| |]; intros X; exact (Hdisj _ X ltac:(assumption)).
      + apply (IH h amt h' qd); auto. apply Later. tauto.
    - destruct (Z.leb_spec oa amt) as [Hle|Hgt].
      + destruct (fulfill_orders_ok price d Hpr ps h Hwf Hok1) as (h1 & d1 & E1 & P1 & _). rewrite E1 in E.
        assert (Hok3 : ptrs_ok h1 (flat_map snd gs) d price) by (apply (ptrs_ok_static h); [exact (phase_static _ _ _ _ _ _ P1)|exact Hok2]). pose proof (phase_wf _ _ _ _ _ _ P1 Hwf) as Hwf1.
        destruct (in_dec Nat.eq_dec i ps) as [Hi|Hi].
        * assert (Hj : In j ps) by (destruct Hg as (g & [<-|Hg] & X1 & X2); [exact X2|exfalso; exact (Nin g Hg i X1 Hi)]).
          pose proof (fulfill_got price d Hpr ps h h1 d1 Hwf Hok1 E1) as G. destruct (amt - oa =? 0) eqn:Er; [injection E as <- _; rewrite !G by assumption; exact Hm|].
          destruct (dist_groups_ok iter Hiter price d Hpr gs h1 (amt - oa) Hwf1 Hok3 ltac:(lia)) as (h2 & qd2 & a & E2 & (P & _) & _). rewrite E2 in E. injection E as <- _.
          pose proof (G i Hi) as Gi. pose proof (G j Hj) as Gj. unfold got in *. rewrite (phase_other _ _ _ _ _ _ i P), (phase_other _ _ _ _ _ _ j P); [lia| |]; intros X; exact (Hdisj _ X ltac:(assumption)).
        * assert (Hl : exists g, In g gs /\ In i (snd g) /\ In j (snd g)) by (apply Later; tauto). destruct Hl as (g & Hgs & Gi & Gj).
          assert (Si : get h1 i = get h i) by exact (phase_other _ _ _ _ _ _ i P1 Hi). assert (Sj : get h1 j = get h j) by exact (phase_other _ _ _ _ _ _ j P1 (Nin g Hgs j Gj)).
          assert (Same : forall hx, got h1 hx j <= got h1 hx i -> got h hx j <= got h hx i) by (intros hx; unfold got; rewrite Si, Sj; auto).
          destruct (amt - oa =? 0) eqn:Er; [injection E as <- _; apply Same; unfold got; lia|]. destruct (dist_groups iter h1 gs (amt - oa) price) as [[h2 d2]|] eqn:E2; [|discriminate E]. injection E as <- _. apply Same.
          apply (IH h1 (amt - oa) h2 d2 Hwf1 Hok3 ltac:(lia)); [exists g; auto| |rewrite Si, Sj; exact Hf|rewrite Si, Sj; exact Hm|exact E2].
          intros x Hx. unfold owned. rewrite (phase_other _ _ _ _ _ _ x P1 (Hdisj x Hx)). apply Ho2. exact Hx.
      + unfold distribute_to_orders in E. pose proof (sort_orders_perm h ps) as Ps.
        assert (Hoks : ptrs_ok h (sort_orders h ps) d price).
        { apply (ptrs_ok_sub h ps); [exact Hok1|intros x X; exact (Permutation_in _ Ps X)|exact (Permutation_NoDup (Permutation_sym Ps) (proj1 Hok1))]. }
        destruct (in_dec Nat.eq_dec i ps) as [Hi|Hi].
        * assert (Hj : In j ps) by (destruct Hg as (g & [<-|Hg] & X1 & X2); [exact X2|exfalso; exact (Nin g Hg i X1 Hi)]).
          apply (dist_orders_fair price d i j Hpr (S (length (sort_orders h ps))) h (sort_orders h ps) amt h' qd Hwf Hoks); [lia|exact Hamt| |exact Hamt'|exact Hm|exact E].
          apply sort_precedes; [intros x Hx; apply Ho, in_app_iff; left; exact Hx|exact Hi|exact Hj|exact Hf].
        * destruct (dist_orders_ok iter Hiter price d Hpr (S (length (sort_orders h ps))) h (sort_orders h ps) amt Hwf Hoks ltac:(lia) Hamt) as (h2 & qd2 & a & E2 & P & _). rewrite E in E2. injection E2 as <- _.
          assert (Hl : exists g, In g gs /\ In i (snd g) /\ In j (snd g)) by (apply Later; tauto). destruct Hl as (g & Hgs & Gi & Gj).
          unfold got. rewrite (phase_other _ _ _ _ _ _ i P), (phase_other _ _ _ _ _ _ j P); [lia| |]; intros X; apply (Permutation_in _ Ps) in X; [exact (Nin g Hgs j Gj X)|exact (Hi X)].
  Qed.

  Lemma tick_fair price d t h amt h' qd i j : 0 < price -> wf_heap h -> ptrs_ok h (snd t) d price -> 0 <= amt -> In i (snd t) -> In j (snd t) -> o_batch (get h i) = o_batch (get h j) ->
    all_owned h (snd t) -> goes_first (get h i) (get h j) -> matchable_amount (get h j) price <= matchable_amount (get h i) price ->
    distribute_to_tick iter h t amt price = Some (h', qd) -> got h h' j <= got h h' i.
  Proof.
    intros Hpr Hwf Hok Hamt Hi Hj Hb Ho Hf Hm E. unfold distribute_to_tick in E. pose proof (group_by_batch_keyed h (snd t)) as HK. set (gs := group_by_batch h (snd t)) in *.
    pose proof (keyed_perm batch_before batch_before_irrefl _ _ _ HK) as Hp.
    apply (dist_groups_fair price d i j Hpr gs h amt h' qd Hwf); [| exact Hamt| | |exact Hf|exact Hm|exact E].
    - apply (ptrs_ok_sub h (snd t)); [assumption| |]; [intros p Hin; eapply Permutation_in; eassumption|eapply Permutation_NoDup; [apply Permutation_sym; exact Hp|apply Hok]].
    - assert (Hk : In (o_batch (get h i)) (map fst gs)) by (apply (keyed_keys batch_before (fun p => o_batch (get h p)) (snd t) gs _ HK); exists i; auto).
      apply in_map_iff in Hk. destruct Hk as ([b ms] & Eb & Hms). cbn in Eb. subst b. exists (o_batch (get h i), ms). split; [exact Hms|]. cbn [snd].
      split; apply (keyed_members _ _ _ _ _ _ HK Hms); auto.
    - intros x Hx. apply Ho. eapply Permutation_in; eassumption.
  Qed.

  Lemma ticks_fair price d i j : 0 < price -> forall pre rest h amt h' qd, wf_heap h -> ptrs_ok h (flat_map snd pre) d price -> 0 <= amt <= total_matchable h (flat_map snd pre) price -> pre <> [] ->
    (exists t : tick, In t pre /\ In i (snd t) /\ In j (snd t)) -> o_batch (get h i) = o_batch (get h j) -> all_owned h (flat_map snd pre) ->
    goes_first (get h i) (get h j) -> matchable_amount (get h j) price <= matchable_amount (get h i) price ->
    distribute_to_ticks iter h (pre ++ rest) amt price = Some (h', qd) -> got h h' j <= got h h' i.
  Proof.
    intros Hpr. induction pre as [|t pre IH]; intros rest h amt h' qd Hwf Hok Hamt Hne Ht Hb Ho Hf Hm E; [congruence|].
    cbn [flat_map] in *. destruct (ptrs_ok_app _ _ _ _ _ Hok) as (Hok1 & Hok2 & Hdisj). rewrite total_matchable_app in Hamt. cbn [app distribute_to_ticks] in E. set (ta := total_matchable h (snd t) price) in *.
    assert (Nin : forall u : tick, In u pre -> forall q, In q (snd u) -> ~ In q (snd t)) by (intros u Hu q Hq; apply Hdisj, in_flat_map; exists u; auto).
    assert (Both : In i (snd t) -> In j (snd t)) by (intros Hi; destruct Ht as (u & [<-|Hu] & X1 & X2); [exact X2|exfalso; exact (Nin u Hu i X1 Hi)]).
    destruct (Z.leb_spec ta amt) as [Hle|Hgt].
    - destruct (fulfill_orders_ok price d Hpr (snd t) h Hwf Hok1) as (h1 & d1 & E1 & P1 & _). rewrite E1 in E. pose proof (phase_wf _ _ _ _ _ _ P1 Hwf) as Hwf1.
      assert (Hok3 : ptrs_ok h1 (flat_map snd pre) d price) by (apply (ptrs_ok_static h); [exact (phase_static _ _ _ _ _ _ P1)|exact Hok2]).
      assert (Same : forall q, In q (flat_map snd pre) -> get h1 q = get h q) by (intros q Hq; exact (phase_other _ _ _ _ _ _ q P1 (Hdisj q Hq))).
      assert (T1 : total_matchable h1 (flat_map snd pre) price = total_matchable h (flat_map snd pre) price) by (apply total_matchable_ext; exact Same).
      pose proof (fulfill_got price d Hpr (snd t) h h1 d1 Hwf Hok1 E1) as G.
      destruct (Z.eqb_spec (amt - ta) 0) as [Er|Er].
      + injection E as <- _. destruct (in_dec Nat.eq_dec i (snd t)) as [Hi|Hi]; [rewrite (G i Hi), (G j (Both Hi)); exact Hm|].
        destruct Ht as (u & [<-|Hu] & X1 & X2); [contradiction|]. unfold got. rewrite !Same; [lia| |]; apply in_flat_map; exists u; auto.
      + assert (Hne' : pre <> []) by (intros ->; cbn in Hamt; lia). destruct (distribute_to_ticks iter h1 (pre ++ rest) (amt - ta) price) as [[h2 d2]|] eqn:E2; [|discriminate E]. injection E as <- _.
        destruct (in_dec Nat.eq_dec i (snd t)) as [Hi|Hi].
        * destruct (distribute_to_ticks_ok iter Hiter price d Hpr pre rest h1 (amt - ta) Hwf1 Hok3 ltac:(lia) Hne') as (hx & dx & a & Ex & (P & _) & _). rewrite E2 in Ex. injection Ex as <- _.
          pose proof (G i Hi) as Gi. pose proof (G j (Both Hi)) as Gj. unfold got in *. rewrite (phase_other _ _ _ _ _ _ i P), (phase_other _ _ _ _ _ _ j P); [lia| |]; intros X; [exact (Hdisj _ X (Both Hi))|exact (Hdisj _ X Hi)].
        * destruct Ht as (u & [<-|Hu] & X1 & X2); [contradiction|]. assert (Si : get h1 i = get h i) by (apply Same, in_flat_map; exists u; auto). assert (Sj : get h1 j = get h j) by (apply Same, in_flat_map; exists u; auto).
          assert (R : got h1 h2 j <= got h1 h2 i); [|unfold got in *; rewrite Si, Sj in R; exact R].
          apply (IH rest h1 (amt - ta) h2 d2 Hwf1 Hok3 ltac:(lia) Hne'); [exists u; auto|rewrite Si, Sj; exact Hb| |rewrite Si, Sj; exact Hf|rewrite Si, Sj; exact Hm|exact E2].
          intros q Hq. rewrite (Same q Hq). apply Ho, in_app_iff. right. exact Hq.
    - destruct (in_dec Nat.eq_dec i (snd t)) as [Hi|Hi].
      + apply (tick_fair price d t h amt h' qd i j Hpr Hwf Hok1 ltac:(lia) Hi (Both Hi) Hb); [intros x Hx; apply Ho, in_app_iff; left; exact Hx|exact Hf|exact Hm|exact E].
      + destruct (distribute_to_tick_ok iter Hiter price d h t amt Hpr Hwf Hok1 ltac:(lia)) as (hx & dx & a & Ex & (P & _) & _). rewrite E in Ex. injection Ex as <- _.
        destruct Ht as (u & [<-|Hu] & X1 & X2); [contradiction|]. unfold got. rewrite (phase_other _ _ _ _ _ _ i P), (phase_other _ _ _ _ _ _ j P); [lia| |]; intros X; [exact (Nin u Hu j X2 X)|exact (Hi X)].
  Qed.
  Lemma trace_got h tr h' q : trace h tr h' -> 0 <= got h h' q.
  Proof.
    unfold got. induction 1 as [h|h i a p rest h' Hi Hp Ha Hacc Htr IH]; [lia|]. destruct (Nat.eq_dec i q) as [->|Hne].
    - rewrite get_upd_same in IH by assumption. unfold filled in IH. cbn in IH. lia.
    - rewrite get_upd_other in IH by assumption. exact IH.
  Qed.

  Lemma side_fair (inc : bool) d (ts : list tick) (h : heap) mp amt h' qd i j : (d = if inc then Sell else Buy) -> 0 < mp -> wf_heap h -> side_wf h inc d ts -> (forall p, In p (flat_map snd ts) <-> on_side h d p) ->
    (forall x ps, In (x, ps) ts -> forall p, In p ps <-> on_side h d p /\ o_price (get h p) = x) -> side_prefix inc mp ts <> [] -> 0 <= amt <= side_total h mp (side_prefix inc mp ts) ->
    distribute_to_ticks iter h ts amt mp = Some (h', qd) -> on_side h d i -> o_price (get h j) = o_price (get h i) -> o_batch (get h i) = o_batch (get h j) -> all_owned h (flat_map snd ts) ->
    goes_first (get h i) (get h j) -> matchable_amount (get h j) mp <= matchable_amount (get h i) mp -> got h h' j <= got h h' i.
  Proof.
    intros Hd Hmp Hwf HS C1 C2 Hne Hamt E Hi Hp Hb Ho Hf Hm. destruct (side_prefix_app inc mp ts) as [rest Er]. set (pre := side_prefix inc mp ts) in *.
    assert (Hok : ptrs_ok h (flat_map snd pre) d mp).
    { apply (side_wf_ptrs h inc); [rewrite Er in HS; eapply side_wf_prefix; exact HS|exact Hd|apply side_prefix_accept]. }
    rewrite side_total_sum in Hamt. assert (Hin : forall t : tick, In t pre -> In t ts) by (intros t Ht; rewrite Er; apply in_app_iff; left; exact Ht).
    assert (E' : distribute_to_ticks iter h (pre ++ rest) amt mp = Some (h', qd)) by (rewrite <- Er; exact E).
    destruct (in_dec Nat.eq_dec j (flat_map snd pre)) as [Hj|Hj].
    - apply in_flat_map in Hj. destruct Hj as ([x ps] & Hx & Hjx). cbn [snd] in Hjx. pose proof (C2 x ps (Hin _ Hx)) as C. pose proof (proj1 (C j) Hjx) as [_ Pj].
      apply (ticks_fair mp d i j Hmp pre rest h amt h' qd Hwf Hok Hamt Hne); [|exact Hb| |exact Hf|exact Hm|exact E'].
      + exists (x, ps). split; [exact Hx|]. cbn [snd]. split; [|exact Hjx]. apply (proj2 (C i)). split; [exact Hi|]. rewrite <- Hp. exact Pj.
      + intros q Hq. apply Ho. apply in_flat_map in Hq. destruct Hq as (t & Ht & Hq). apply in_flat_map. exists t. auto.
    - destruct (distribute_to_ticks_ok iter Hiter mp d Hmp pre rest h amt Hwf Hok Hamt Hne) as (hx & dx & a & Ex & (P & _) & _). rewrite E' in Ex. injection Ex as <- _.
      unfold got. rewrite (phase_other _ _ _ _ _ _ j P Hj). destruct P as (tr & T & _). pose proof (trace_got h tr h' i T). unfold got in *. lia.
  Qed.

  Lemma single_fair h mp h' qd i j : 0 < mp -> wf_heap h -> (forall p, (p < length h)%nat -> owned (get h p)) -> match_single iter h (new_order_book h) mp = Some (Some (h', qd)) ->
    (i < length h)%nat -> 0 < matchable_amount (get h i) (o_price (get h i)) ->
    o_dir (get h j) = o_dir (get h i) -> o_price (get h j) = o_price (get h i) -> o_batch (get h i) = o_batch (get h j) -> goes_first (get h i) (get h j) -> matchable_amount (get h j) mp <= matchable_amount (get h i) mp ->
    got h h' j <= got h h' i.
  Proof.
    intros Hmp Hwf Ho E Hl Hi Hd Hp Hb Hf Hm. destruct (book_side_wf h Hwf) as [HB HS]. destruct (new_book_contents h) as [(_ & _ & CB & TB) (_ & _ & CS & TS)]. set (ob := new_order_book h) in *.
    assert (TB' : forall x ps, In (x, ps) (buys ob) -> forall p, In p ps <-> on_side h Buy p /\ o_price (get h p) = x) by (intros x ps X; exact (proj2 (proj2 (TB x ps X)))).
    assert (TS' : forall x ps, In (x, ps) (sells ob) -> forall p, In p ps <-> on_side h Sell p /\ o_price (get h p) = x) by (intros x ps X; exact (proj2 (proj2 (TS x ps X)))).
    assert (OB : all_owned h (flat_map snd (buys ob))) by (intros q Hq; apply Ho; exact (proj1 (proj1 (CB q) Hq))).
    assert (OS : all_owned h (flat_map snd (sells ob))) by (intros q Hq; apply Ho; exact (proj1 (proj1 (CS q) Hq))).
    pose proof (sides_disjoint h _ _ HB HS) as Hdis. unfold match_single in E.
    destruct (side_prefix_app false mp (buys ob)) as [brest Eb]. destruct (side_prefix_app true mp (sells ob)) as [srest Es].
    destruct (find_matchable_single_ok h ob mp) as (r & Er & Hr).
    { eapply side_nonneg; eauto. rewrite Eb in HB. eapply side_wf_prefix; exact HB. }
    { eapply side_nonneg; eauto. rewrite Es in HS. eapply side_wf_prefix; exact HS. }
    rewrite Er in E. destruct r as [m|]; [|discriminate E]. destruct Hr as (Nb & Ns & Hm1 & Hm2).
    destruct (distribute_to_ticks iter h (buys ob) m mp) as [[h1 d1]|] eqn:E1; [|discriminate E]. destruct (distribute_to_ticks iter h1 (sells ob) m mp) as [[h2 d2]|] eqn:E2; [|discriminate E]. injection E as <- _.
    assert (HBp : ptrs_ok h (flat_map snd (side_prefix false mp (buys ob))) Buy mp).
    { apply (side_wf_ptrs h false); [rewrite Eb in HB; eapply side_wf_prefix; exact HB|reflexivity|apply side_prefix_accept]. }
    assert (HSp : ptrs_ok h (flat_map snd (side_prefix true mp (sells ob))) Sell mp).
    { apply (side_wf_ptrs h true); [rewrite Es in HS; eapply side_wf_prefix; exact HS|reflexivity|apply side_prefix_accept]. }
    destruct (distribute_to_ticks_ok iter Hiter mp Buy Hmp (side_prefix false mp (buys ob)) brest h m Hwf HBp) as (hx & dx & a & Ex & (P1 & _) & _); [rewrite <- side_total_sum; lia|exact Nb|]. rewrite <- Eb, E1 in Ex. injection Ex as <- _.
    pose proof (phase_static _ _ _ _ _ _ P1) as St1. pose proof (phase_wf _ _ _ _ _ _ P1 Hwf) as Hwf1.
    assert (Ib : incl (flat_map snd (side_prefix false mp (buys ob))) (flat_map snd (buys ob))) by (rewrite Eb at 2; rewrite flat_map_app; apply incl_appl, incl_refl).
    assert (Is : incl (flat_map snd (side_prefix true mp (sells ob))) (flat_map snd (sells ob))) by (rewrite Es at 2; rewrite flat_map_app; apply incl_appl, incl_refl).
    assert (Same : forall q, o_dir (get h q) = Sell -> get h1 q = get h q).
    { intros q Hq. apply (phase_other _ _ _ _ _ _ q P1). intros X. apply Ib in X. apply CB in X. destruct X as (_ & X & _). congruence. }
    assert (SameS : forall q, In q (flat_map snd (sells ob)) -> get h1 q = get h q) by (intros q Hq; apply Same; apply CS in Hq; apply Hq).
    assert (T2 : total_matchable h1 (flat_map snd (side_prefix true mp (sells ob))) mp = total_matchable h (flat_map snd (side_prefix true mp (sells ob))) mp) by (apply total_matchable_ext; intros q Hq; apply SameS, Is, Hq).
    destruct (distribute_to_ticks_ok iter Hiter mp Sell Hmp (side_prefix true mp (sells ob)) srest h1 m Hwf1) as (hy & dy & b & Ey & (P2 & _) & _); [exact (ptrs_ok_static _ _ _ _ _ St1 HSp)|rewrite T2, <- side_total_sum; lia|exact Ns|]. rewrite <- Es, E2 in Ey. injection Ey as <- _.
    destruct (o_dir (get h i)) eqn:Di.
    - pose proof (side_fair false Buy (buys ob) h mp m h1 d1 i j eq_refl Hmp Hwf HB CB TB' Nb ltac:(lia) E1 (conj Hl (conj Di Hi)) Hp Hb OB Hf Hm) as R. unfold got in *.
      assert (SameB : forall q, o_dir (get h q) = Buy -> get h2 q = get h1 q).
      { intros q Hq. apply (phase_other _ _ _ _ _ _ q P2). intros X. apply Is in X. apply CS in X. destruct X as (_ & X & _). congruence. }
      rewrite (SameB i Di), (SameB j Hd). exact R.
    - assert (OnS : forall p, on_side h1 Sell p <-> on_side h Sell p).
      { intros p. unfold on_side. destruct St1 as [L S]. rewrite L. destruct (S p) as (Sd & _). rewrite Sd. split; intros (A & B & X); (split; [exact A|split; [exact B|]]).
        - rewrite (Same p B) in X. exact X.
        - rewrite (Same p B). exact X. }
      assert (R : got h1 h2 j <= got h1 h2 i); [|unfold got in *; rewrite (Same i Di), (Same j Hd) in R; exact R].
      apply (side_fair true Sell (sells ob) h1 mp m h2 d2 i j eq_refl Hmp Hwf1 (side_wf_static _ _ _ _ _ St1 HS)).
      + intros p. rewrite OnS. apply CS.
      + intros x ps Hx p. rewrite OnS, (TS' x ps Hx p). split; intros [A B]; (split; [exact A|]); [rewrite (Same p (proj1 (proj2 A))); exact B|rewrite (Same p (proj1 (proj2 A))) in B; exact B].
      + exact Ns.
      + rewrite side_total_sum, T2, <- side_total_sum. lia.
      + exact E2.
      + apply OnS. exact (conj Hl (conj Di Hi)).
      + rewrite (Same i Di), (Same j Hd). exact Hp.
      + rewrite (Same i Di), (Same j Hd). exact Hb.
      + intros q Hq. rewrite (SameS q Hq). apply OS. exact Hq.
      + rewrite (Same i Di), (Same j Hd). exact Hf.
      + rewrite (Same i Di), (Same j Hd). exact Hm.
  Qed.
End Fair.
