(** A node replaying the blocks of the chain. *)
From Verif Require Import Base Dec OrderModel MatchModel MatchSpec MatchProofs KeeperModel KeeperSpec.

(** What consensus gives every node: block times, transactions in order, block ends. *)
Inductive input := IBegin (t : Z) | IMsg (m : msg) | IEnd.

(** One input.  A message that fails leaves the state as it was (baseapp discards its writes); a
    failing EndBlock halts the node.  [iter] is the node's map iteration order in this block. *)
Definition node_step (iter : list (nat * Z) -> list (nat * Z)) (c : config) (i : input) : option config :=
  match i, c with
  | IBegin t, (Between, s) => if st_time s <=? t then Some (InBlock, begin_block s t) else None
  | IMsg m, (InBlock, s) => Some (InBlock, match deliver s m with Some s' => s' | None => s end)
  | IEnd, (InBlock, s) => match end_block iter s with Some s' => Some (Between, s') | None => None end
  | _, _ => None
  end.
(** The whole input; [iters n] is the iteration order used for the n-th input. *)
Fixpoint node_run (iters : nat -> list (nat * Z) -> list (nat * Z)) (n : nat) (c : config) (l : list input) : option config :=
  match l with
  | [] => Some c
  | i :: t => match node_step (iters n) c i with Some c' => node_run iters (S n) c' t | None => None end
  end.
(** Parameter changes in the input are among [Q]. *)
Definition params_within (Q : params -> Prop) (l : list input) : Prop := forall p, In (IMsg (MUpdateParams p)) l -> Q p.
