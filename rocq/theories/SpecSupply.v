(** What C93 talks about: the tokens in existence and the allowance of a delegate. *)
From Verif Require Import Base Types Instr Processor History Spec WorldLemmas.

(** The tokens of the mint [m] in one account, and in all of them together. *)
Definition tokens_of (e : env) (m : pubkey) (a : account) : N :=
  if own a =? e_token e then
    match dat a with DToken t => if t_mint t =? m then t_amount t else 0 | _ => 0 end
  else 0.
Definition in_existence (e : env) (w : world) (m : pubkey) : N := wsum (fun _ a => tokens_of e m a) w.

(** An owner for whom neither this program nor the rewards program signs. *)
Definition outsider (e : env) (x : pubkey) : Prop :=
  (forall ck, x <> e_vault e ck) /\ (forall m, x <> e_pool e m).

(** The delegate [x] took [n] tokens: the balance and the allowance fall by [n], the
    delegation ends when nothing is left of it, and nothing else changes. *)
Record drew (x n : N) (t t' : token) : Prop := {
  dr_delegate : t_delegate t = Some x;
  dr_positive : 0 < n;
  dr_amount : t_amount t = t_amount t' + n;
  dr_allowance : t_delegated t = t_delegated t' + n;
  dr_left : t_delegate t' = if t_delegated t' =? 0 then None else Some x;
  dr_mint : t_mint t' = t_mint t;
  dr_owner : t_owner t' = t_owner t;
  dr_close : t_close t' = t_close t;
  dr_frozen : t_frozen t' = t_frozen t;
}.
(** The account received [n] tokens (perhaps none). *)
Record received (n : N) (t t' : token) : Prop := {
  rc_amount : t_amount t' = t_amount t + n;
  rc_allowance : t_delegated t' = t_delegated t;
  rc_delegate : t_delegate t' = t_delegate t;
  rc_mint : t_mint t' = t_mint t;
  rc_owner : t_owner t' = t_owner t;
  rc_close : t_close t' = t_close t;
  rc_frozen : t_frozen t' = t_frozen t;
}.
(** How much a delegate may take. *)
Definition allowance (t : token) : N := match t_delegate t with Some _ => t_delegated t | None => 0 end.

(** No instruction of the history carries the signature of [x], and nothing happens but
    instructions of this program. *)
Definition unsigned_by (x : pubkey) (ev : event) : Prop :=
  match ev with Do cx _ => signed cx x = false | Other => False end.
