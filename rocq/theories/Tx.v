(** The end of a transaction in the runtime.

    A transaction runs its instructions one after the other and keeps nothing if one
    of them fails.  When all have succeeded the runtime compares the rent state of
    every account before and after (agave [svm/src/rent_calculator.rs],
    [transition_allowed]): an account that holds lamports but fewer than its
    rent-exempt minimum is accepted only if it was in that state before, with the same
    size and at least as many lamports.  Otherwise the transaction is refused
    ([InsufficientFundsForRent]).  An account without lamports is removed. *)
From stdpp Require Import fin_maps gmap.
From Verif Require Import Base Types Layout Instr Math External Processor Runtime.

Definition rent_paying (e : env) (a : account) : bool :=
  (0 <? lam a) && (lam a <? e_rent e (data_len (dat a))).
Definition rent_moves (e : env) (a a' : account) : bool :=
  negb (rent_paying e a') ||
  (rent_paying e a && (data_len (dat a') =? data_len (dat a)) && (lam a' <=? lam a)).
Definition rent_ok (e : env) (w w' : world) : bool :=
  forallb (fun p : pubkey * account => rent_moves e (get w (fst p)) (snd p)) (map_to_list w').
Definition purge (w : world) : world :=
  filter (fun p : pubkey * account => (lam (snd p) =? 0) = false) w.

Fixpoint run_all (e : env) (l : list (ctx * call)) (w : world) : result world :=
  match l with
  | [] => Ok w
  | (cx, c) :: l => let* w := run e cx c w in run_all e l w
  end.
Inductive outcome :=
| Final (w : world)
| Refused
| Failed.
(** A transaction of instructions of this program. *)
Definition transaction (e : env) (l : list (ctx * call)) (w : world) : outcome :=
  match run_all e l w with
  | Ok w' => if rent_ok e w w' then Final (purge w') else Refused
  | _ => Failed
  end.
