(** Concrete histories of the chain with the overflow checks, for users holding [m] of each coin. *)
From Verif Require Import Base Dec OrderModel MatchModel PoolModel KeeperModel KeeperSpec MatchProofs KeeperExample KeeperChk KeeperChkProofs.

Definition play1_c (c : config) (a : action) : option config :=
  match a, c with
  | AEnd, (InBlock, s) => match end_block_c idl s with Some s' => Some (Between, s') | None => None end
  | AEnd, _ => None
  | _, _ => play1 c a
  end.
Fixpoint play_c (c : config) (l : list action) : option config :=
  match l with [] => Some c | a :: t => match play1_c c a with Some c' => play_c c' t | None => None end end.
Lemma play1_c_step Q c a c' : play1_c c a = Some c' -> step_c Q c c'.
Proof.
  destruct c as [[|] s], a as [t|m|]; cbn [play1_c]; intros H; try discriminate H.
  - cbn in H. destruct (st_time s <=? t) eqn:E; [|discriminate H]. injection H as <-. constructor. apply Z.leb_le. exact E.
  - destruct m; cbn in H; discriminate H.
  - cbn [play1] in H. destruct m; try discriminate H.
    all: match type of H with context [deliver ?a ?b] => destruct (deliver a b) as [s'|] eqn:E; [|discriminate H] end; injection H as <-; (eapply StepC_msg; [exact E|intros p X; discriminate X]).
  - destruct (end_block_c idl s) as [s'|] eqn:E; [|discriminate H]. injection H as <-. apply (StepC_end Q idl); [exact idl_perm|exact E].
Qed.
Lemma play_c_runs Q l : forall c c', play_c c l = Some c' -> runs_c Q c c'.
Proof.
  assert (T : forall a b, runs_c Q a b -> forall l c', play_c b l = Some c' -> runs_c Q a c').
  { intros a b R l0. revert b R. induction l0 as [|x l0 IH]; intros b R c' H; cbn [play_c] in H; [injection H as <-; exact R|].
    destruct (play1_c b x) as [b'|] eqn:E; [|discriminate H]. apply (IH b'); [|exact H]. exact (RunsC_step Q _ _ _ R (play1_c_step Q _ _ _ E)). }
  intros c c' H. exact (T c c (RunsC_refl Q c) l c' H).
Qed.

Definition whale_bank (m : Z) : bank :=
  mkBank (fun a d => match a, d with User u, Coin k => if (1 <=? u) && (u <=? 3) && ((k =? 1) || (k =? 2) || (k =? 9)) then m else 0 | _, _ => 0 end)
         (fun d => match d with Coin k => if (k =? 1) || (k =? 2) || (k =? 9) then 3 * m else 0 | _ => 0 end).
Lemma whale_bank_ok m : 0 <= m -> genesis_bank (whale_bank m).
Proof.
  intros Hm. split; [|split; [|reflexivity]].
  - intros a d. destruct a, d; try exact (Z.le_refl 0). cbn [bal whale_bank]. destruct (_ && _); [exact Hm|apply Z.le_refl].
  - exists [User 1; User 2; User 3]. split; [repeat (constructor; [cbn; intuition congruence|]); constructor|]. split.
    + intros a d N. destruct a; try reflexivity. destruct d; [|reflexivity]. cbn [bal whale_bank].
      destruct ((1 <=? n) && (n <=? 3)) eqn:E; [|reflexivity]. exfalso. apply N. apply andb_true_iff in E. destruct E as [E1 E2]. apply Z.leb_le in E1, E2.
      assert (n = 1 \/ n = 2 \/ n = 3) as [->|[->| ->]] by lia; cbn; auto.
    + intros d. destruct d; [|reflexivity]. cbn [supply whale_bank map bal]. change (1 <=? 1) with true. change (1 <=? 3) with true. change (1 <=? 2) with true. change (2 <=? 3) with true. change (3 <=? 3) with true. cbn [andb].
      destruct ((n =? 1) || (n =? 2) || (n =? 9)); cbn [sumZ fold_right]; lia.
Qed.
Definition whale_start (m : Z) : state := init_state (ex_params 1) (whale_bank m) 0 0.
Lemma whale_genesis (Q : params -> Prop) m : 0 <= m -> Q (ex_params 1) -> genesis Q (whale_start m).
Proof. intros Hm Hq. exists (ex_params 1), (whale_bank m), 0, 0. split; [reflexivity|]. split; [exact Hq|]. split; [exact (whale_bank_ok m Hm)|]. split; [lia|reflexivity]. Qed.
Lemma whale_reach (Q : params -> Prop) m l c : 0 <= m -> Q (ex_params 1) -> play_c (Between, whale_start m) l = Some c -> reach_c Q c.
Proof. intros Hm Hq H. exists (whale_start m). split; [exact (whale_genesis Q m Hm Hq)|exact (play_c_runs Q l _ _ H)]. Qed.

(** A trade of 100 base coins at price 10^38; then a resting buy, and a sell of 7 * 10^38 base coins,
    both ten percent below that price. *)
Definition whale_money : Z := 10 ^ 41.
Definition whale_last : dec := 10 ^ 38 * P18.
Definition whale_price : dec := 9 * 10 ^ 37 * P18.
Definition whale1 : list action :=
  [ABegin 5; AMsg (MCreatePair 1 (Coin 1) (Coin 2)); AMsg (MLimitOrder 2 1 Buy (Coin 2) (10 ^ 40) (Coin 1) whale_last 100 60); AMsg (MLimitOrder 3 1 Sell (Coin 1) 100 (Coin 2) whale_last 100 60); AEnd].
Definition whale2 : list action := whale1 ++
  [ABegin 10; AMsg (MLimitOrder 2 1 Buy (Coin 2) (10 ^ 40) (Coin 1) whale_price 100 60); AMsg (MLimitOrder 3 1 Sell (Coin 1) (7 * 10 ^ 38) (Coin 2) whale_price (7 * 10 ^ 38) 60)].
Definition is_in_block (c : config) : bool := match fst c with InBlock => true | Between => false end.
Definition whale_facts (c : config) : bool :=
  is_in_block c && (match get_pair (snd c) 1 with Some pr => match pr_last_price pr with Some l => l =? whale_last | None => false end | None => false end &&
  (negb (is_some (end_block_c idl (snd c))) && is_some (end_block idl (snd c)))).
