(** Concrete histories used to show that hypotheses of the keeper theorems are met. *)
From Verif Require Import Base Dec OrderModel MatchModel PoolModel KeeperModel KeeperSpec MatchProofs.
From Coq Require Import Permutation.

Inductive action := ABegin (t : Z) | AMsg (m : msg) | AEnd.
Definition idl : list (nat * Z) -> list (nat * Z) := fun l => l.
Lemma idl_perm : is_perm_iter idl.
Proof. intros l. apply Permutation_refl. Qed.

Definition play1 (c : config) (a : action) : option config :=
  match a, c with
  | ABegin t, (Between, s) => if st_time s <=? t then Some (InBlock, begin_block s t) else None
  | AMsg (MUpdateParams _), _ => None
  | AMsg m, (InBlock, s) => match deliver s m with Some s' => Some (InBlock, s') | None => None end
  | AEnd, (InBlock, s) => match end_block idl s with Some s' => Some (Between, s') | None => None end
  | _, _ => None
  end.
(** Result of a list of actions; stops at the first action that is not possible. *)
Fixpoint play (c : config) (l : list action) : config * bool :=
  match l with
  | [] => (c, true)
  | a :: t => match play1 c a with Some c' => play c' t | None => (c, false) end
  end.
Lemma play1_step Q c a c' : play1 c a = Some c' -> step Q c c'.
Proof.
  destruct c as [ph s]. destruct a as [t|m|]; cbn.
  - destruct ph; [|discriminate]. destruct (Z.leb_spec (st_time s) t); [|discriminate]. intros E. injection E as <-. constructor. assumption.
  - intros E. assert (X : (forall p, m <> MUpdateParams p) /\ ph = InBlock /\ exists s', deliver s m = Some s' /\ c' = (InBlock, s')).
    { destruct m; try discriminate E; (destruct ph; [discriminate E|]; match type of E with context [deliver s ?m] => destruct (deliver s m) as [s'|] eqn:D end; [|discriminate E];
      injection E as <-; split; [discriminate|]; split; [reflexivity|]; exists s'; split; reflexivity). }
    destruct X as (N & -> & s' & D & ->). econstructor; [eassumption|]. intros p ->. exfalso. exact (N p eq_refl).
  - destruct ph; [discriminate|]. destruct (end_block idl s) as [s'|] eqn:D; [|discriminate]. intros E. injection E as <-. econstructor; [exact idl_perm|eassumption].
Qed.
Lemma runs_head Q a b c : step Q a b -> runs Q b c -> runs Q a c.
Proof. intros H R. induction R; [econstructor; [constructor|assumption]|]. econstructor; [apply IHR; assumption|assumption]. Qed.
Lemma play_runs Q l : forall c, runs Q c (fst (play c l)).
Proof.
  induction l as [|a l IH]; intros c; cbn; [constructor|]. destruct (play1 c a) as [c'|] eqn:E; [|constructor].
  eapply runs_head; [exact (play1_step Q _ _ _ E)|apply IH].
Qed.

(** Parameters: the defaults with the given batch size; three users holding three coins. *)
Definition ex_params (batch : Z) : params :=
  mkParams batch 4 (Derived 1) (Derived 2) 1000000000000 [(Coin 9, 1000000)] [(Coin 9, 1000000)] 1000000 (P18 / 10) 15 86400 0 20.
Definition ex_money : Z := 1000000000000000.
Definition ex_bank : bank :=
  mkBank (fun a d => match a, d with User u, Coin k => if (1 <=? u) && (u <=? 3) && ((k =? 1) || (k =? 2) || (k =? 9)) then ex_money else 0 | _, _ => 0 end)
         (fun d => match d with Coin k => if (k =? 1) || (k =? 2) || (k =? 9) then 3 * ex_money else 0 | _ => 0 end).
Lemma ex_bank_ok : genesis_bank ex_bank.
Proof.
  split; [|split; [|reflexivity]].
  - intros a d. destruct a, d; try exact (Z.le_refl 0). cbn [bal ex_bank]. destruct (_ && _); discriminate.
  - exists [User 1; User 2; User 3]. split; [repeat (constructor; [cbn; intuition congruence|]); constructor|]. split.
    + intros a d N. destruct a; try reflexivity. destruct d; [|reflexivity]. cbn [bal ex_bank].
      destruct ((1 <=? n) && (n <=? 3)) eqn:E; [|reflexivity]. exfalso. apply N. apply andb_true_iff in E. destruct E as [E1 E2]. apply Z.leb_le in E1, E2.
      assert (n = 1 \/ n = 2 \/ n = 3) as [->|[->| ->]] by lia; cbn; auto.
    + intros d. destruct d; [|reflexivity]. cbn [supply ex_bank map bal]. change (1 <=? 1) with true. change (1 <=? 3) with true. change (1 <=? 2) with true. change (2 <=? 3) with true. change (3 <=? 3) with true. cbn [andb].
      destruct ((n =? 1) || (n =? 2) || (n =? 9)); reflexivity.
Qed.
Definition ex_start (batch : Z) : state := init_state (ex_params batch) ex_bank 0 0.
Lemma ex_genesis batch : 0 < batch -> genesis (sane any_params) (ex_start batch).
Proof.
  intros B. exists (ex_params batch), ex_bank, 0, 0. split; [unfold valid_params; cbn; apply andb_true_iff; split; [|reflexivity]; lia|].
  split; [split; [exact Logic.I|reflexivity]|]. split; [exact ex_bank_ok|]. split; [lia|reflexivity].
Qed.
Definition after (batch : Z) (l : list action) : config := fst (play (Between, ex_start batch) l).
Lemma after_reach batch l : 0 < batch -> reach (sane any_params) (after batch l).
Proof. intros B. exists (ex_start batch). split; [exact (ex_genesis batch B)|apply play_runs]. Qed.
Lemma after_in_block batch l : 0 < batch -> fst (after batch l) = InBlock -> reach (sane any_params) (InBlock, snd (after batch l)).
Proof. intros B E. rewrite <- E, <- surjective_pairing. exact (after_reach batch l B). Qed.
Lemma after_app batch l1 l2 Q : snd (play (Between, ex_start batch) l1) = true -> runs Q (after batch l1) (after batch (l1 ++ l2)).
Proof.
  intros H. replace (after batch (l1 ++ l2)) with (fst (play (after batch l1) l2)); [apply play_runs|]. unfold after. generalize dependent (Between, ex_start batch).
  induction l1 as [|a l1 IH]; intros c H; [reflexivity|]. cbn in *. destruct (play1 c a) as [c'|]; [auto|discriminate H].
Qed.

Definition half : dec := P18 / 2.
(** Trading: a pair; crossing limit orders; market making and market orders; a cancellation; expiry. *)
Definition trade1 : list action :=
  [ABegin 5; AMsg (MCreatePair 1 (Coin 1) (Coin 2)); AMsg (MLimitOrder 1 1 Sell (Coin 1) 100000 (Coin 2) half 100000 3600);
   AMsg (MLimitOrder 2 1 Buy (Coin 2) 70000 (Coin 1) half 140000 3600)].
Definition trade2 : list action := trade1 ++ [AEnd; ABegin 15;
   AMsg (MMMOrder 1 1 Buy (Coin 2) 500000 (Coin 1) (P18 * 49 / 100) 100000 3600);
   AMsg (MMMOrder 1 1 Sell (Coin 1) 500000 (Coin 2) (P18 * 51 / 100) 100000 60); AMsg (MMarketOrder 3 1 Buy (Coin 2) 500000 (Coin 1) 70000 60)].
Definition trade3 : list action := trade2 ++ [AEnd; ABegin 20].
Definition trade4 : list action := trade3 ++ [AMsg (MCancelOrder 1 1 3)].
Definition trade5 : list action := trade4 ++ [AEnd; ABegin 90].
Definition trade6 : list action := trade5 ++ [AEnd].
(** Pools: a basic and a ranged pool; a deposit and a withdrawal. *)
Definition pools1 : list action :=
  [ABegin 5; AMsg (MCreatePair 1 (Coin 1) (Coin 2)); AMsg (MCreatePool 1 1 [(Coin 1, 100000000); (Coin 2, 50000000)])].
Definition pools2 : list action := pools1 ++ [
   AMsg (MCreateRangedPool 2 1 [(Coin 1, 100000000); (Coin 2, 50000000)] (P18 * 4 / 10) (P18 * 6 / 10) half); AEnd; ABegin 10;
   AMsg (MDeposit 2 1 [(Coin 1, 100000000); (Coin 2, 60000000)]); AMsg (MWithdraw 1 1 (PoolCoin 1) 400000000000)].
Definition pools3 : list action := pools2 ++ [AEnd].
