(** Histories made of whole transactions. *)
From Verif Require Import Base Types Layout Instr Math External Processor Runtime History Spec Tx.

(** An account is settled when it does not exist or is rent exempt. *)
Definition exempt (e : env) (a : account) : Prop := e_rent e (data_len (dat a)) <= lam a.
Definition settled (e : env) (w : world) : Prop := forall k, get w k = no_account \/ exempt e (get w k).

(** The token program initialises only rent-exempt accounts and clears the ones it
    closes; the rewards program never takes a holder account's rent. *)
Record funded (e : env) (w : world) : Prop := {
  fd_token : forall k t, own (get w k) = e_token e -> dat (get w k) = DToken t -> 0 < lam (get w k);
  fd_holder : forall o h, dat (get w (e_holder e o)) = DHolder h -> 0 < lam (get w (e_holder e o));
}.

(** A transaction under way: instructions of this program and of others. *)
Inductive within (e : env) : world -> world -> Prop :=
| within_nil w : within e w w
| within_do w w1 cx c w2 : within e w w1 -> step e w1 (Do cx c) w2 -> within e w w2
| within_other w w1 w2 : within e w w1 -> step e w1 Other w2 -> (funded e w1 -> funded e w2) -> within e w w2.
(** A transaction that went through. *)
Definition tx (e : env) (w w' : world) : Prop :=
  exists w1, within e w w1 /\ rent_ok e w w1 = true /\ w' = purge w1.
Inductive txs (e : env) : world -> world -> Prop :=
| txs_nil w : txs e w w
| txs_cons w w1 w2 : txs e w w1 -> tx e w1 w2 -> txs e w w2.
(** A chain of transactions from a world without initialised accounts of the program. *)
Definition chain (e : env) (w : world) : Prop :=
  exists w0, genesis e w0 /\ funded e w0 /\ settled e w0 /\ txs e w0 w.
