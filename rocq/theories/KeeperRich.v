(** Concrete histories of three richer users, in which the end blocker fails. *)
From Verif Require Import Base Dec OrderModel MatchModel PoolModel KeeperModel KeeperSpec MatchProofs KeeperExample.

Definition rich_money : Z := 100 * P18.
Definition rich_bank : bank :=
  mkBank (fun a d => match a, d with User u, Coin k => if (1 <=? u) && (u <=? 3) && ((k =? 1) || (k =? 2) || (k =? 9)) then rich_money else 0 | _, _ => 0 end)
         (fun d => match d with Coin k => if (k =? 1) || (k =? 2) || (k =? 9) then 3 * rich_money else 0 | _ => 0 end).
Lemma rich_bank_ok : genesis_bank rich_bank.
Proof.
  split; [|split; [|reflexivity]].
  - intros a d. destruct a, d; try exact (Z.le_refl 0). cbn [bal rich_bank]. destruct (_ && _); discriminate.
  - exists [User 1; User 2; User 3]. split; [repeat (constructor; [cbn; intuition congruence|]); constructor|]. split.
    + intros a d N. destruct a; try reflexivity. destruct d; [|reflexivity]. cbn [bal rich_bank].
      destruct ((1 <=? n) && (n <=? 3)) eqn:E; [|reflexivity]. exfalso. apply N. apply andb_true_iff in E. destruct E as [E1 E2]. apply Z.leb_le in E1, E2.
      assert (n = 1 \/ n = 2 \/ n = 3) as [->|[->| ->]] by lia; cbn; auto.
    + intros d. destruct d; [|reflexivity]. cbn [supply rich_bank map bal]. change (1 <=? 1) with true. change (1 <=? 3) with true. change (1 <=? 2) with true. change (2 <=? 3) with true. change (3 <=? 3) with true. cbn [andb].
      destruct ((n =? 1) || (n =? 2) || (n =? 9)); reflexivity.
Qed.
Definition rich_start (prm : params) : state := init_state prm rich_bank 0 0.
Definition rich_after (prm : params) (l : list action) : config := fst (play (Between, rich_start prm) l).
Lemma rich_runs (Q : params -> Prop) prm l : valid_params prm = true -> Q prm -> reach Q (rich_after prm l).
Proof.
  intros V S. exists (rich_start prm). split; [|apply play_runs]. exists prm, rich_bank, 0, 0. split; [exact V|]. split; [exact S|]. split; [exact rich_bank_ok|]. split; [lia|reflexivity].
Qed.
Lemma rich_in_block (Q : params -> Prop) prm l : valid_params prm = true -> Q prm -> fst (rich_after prm l) = InBlock -> reach Q (InBlock, snd (rich_after prm l)).
Proof. intros V S E. rewrite <- E, <- surjective_pairing. exact (rich_runs Q prm l V S). Qed.
Lemma rich_reach Q prm l : valid_params prm = true -> sane Q prm -> reach (sane Q) (rich_after prm l).
Proof.
  intros V S. exists (rich_start prm). split; [|apply play_runs]. exists prm, rich_bank, 0, 0. split; [exact V|]. split; [exact S|]. split; [exact rich_bank_ok|]. split; [lia|reflexivity].
Qed.

(** The default parameters with another tick precision, price limit ratio and withdraw fee rate. *)
Definition params_with (prec ratio fee : Z) : params :=
  mkParams 1 prec (Derived 1) (Derived 2) 1000000000000 [(Coin 9, 1000000)] [(Coin 9, 1000000)] 1000000 ratio 15 86400 fee 20.

(** A ranged pool holding only quote coin, and a gift of one unit of base coin to its reserve. *)
Definition gift_x : Z := 1900000000000000000 - 118000354.
Definition gift_pool : list action :=
  [ABegin 5; AMsg (MCreatePair 1 (Coin 1) (Coin 2));
   AMsg (MCreateRangedPool 2 1 [(Coin 2, gift_x)] (4990000 * P18) (5000000 * P18) (5000000 * P18)); AEnd; ABegin 10].
Definition gift : list action := gift_pool ++ [AMsg (MSend 3 (PoolReserve 1) [(Coin 1, 1)])].
