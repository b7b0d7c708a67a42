(** Vocabulary: what an instruction can see and change. *)
From Verif Require Import Base Types Instr Processor Runtime.

(** Two worlds hold the same accounts at the given addresses. *)
Definition agree (ks : list pubkey) (w1 w2 : world) : Prop :=
  forall k, In k ks -> get w1 k = get w2 k.
(** ... at every address. *)
Definition same_world (w1 w2 : world) : Prop := forall k, get w1 k = get w2 k.

(** Two outcomes are the same: both succeed with related values, both return the
    same error, or both abort. *)
Definition alike {A} (R : A -> A -> Prop) (r1 r2 : result A) : Prop :=
  match r1, r2 with
  | Ok a, Ok b => R a b
  | Err x, Err y => x = y
  | Panic, Panic => True
  | _, _ => False
  end.

(** The world after an instruction: unchanged when it fails. *)
Definition after_ix (w : world) (r : result world) : world := match r with Ok w' => w' | _ => w end.

(** One instruction of a transaction as submitted. *)
Record submitted := Submit { su_ctx : ctx; su_keys : list pubkey; su_data : list N }.
Definition outcome (e : env) (x : submitted) (w : world) : result world :=
  process_instruction e (su_ctx x) (su_keys x) (su_data x) w.

(** Neither writes an account the other one names (the runtime's condition for
    executing two transactions in parallel). *)
Definition independent (x y : submitted) : Prop :=
  forall k, In k (su_keys x) -> In k (su_keys y) ->
    writable (su_ctx x) k = false /\ writable (su_ctx y) k = false.

(** Instructions executed one after the other, failed ones without effect. *)
Definition all_after (e : env) (xs : list submitted) (w : world) : world :=
  fold_left (fun w x => after_ix w (outcome e x w)) xs w.
