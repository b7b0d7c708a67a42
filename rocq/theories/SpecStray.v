(** Vocabulary: what becomes, over a history, of the holder rewards the pool pays to the
    vault authority of a config. *)
From Verif Require Import Base Types Instr Processor Runtime History Spec SpecReward SpecShare SpecHolder.
Local Open Scope N_scope.

(** What all the stake accounts of [ck] are owed in holder rewards, in units of [10^-18]
    lamports, and what they would be paid now, in lamports. *)
Definition holder_credits (e : env) (w : world) (ck : pubkey) : N :=
  sum_of e w ck (fun d => since (holder_acc e w ck) (last_holder d) * staked d).
Definition holder_claims (e : env) (w : world) (ck : pubkey) : N := sum_of e w ck (holder_claim e w ck).
Definition holder_claim_of (e : env) (w : world) (ck k : pubkey) : N :=
  match stake_of e w ck k with Some d => holder_claim e w ck d | None => 0 end.
(** Tokens deposited in the pool behind which no stake account stands (by C05 those that
    were slashed). *)
Definition orphaned (e : env) (w : world) (ck : pubkey) : N := deposit e w ck - sum_of e w ck staked.

(** One line of the books: lamports received from the pool, and paid to stake accounts;
    what an advance of the accumulator brought to tokens staked by the very instruction,
    and to tokens of nobody or just unstaked, in units of [10^-18] lamports; the numbers
    of advances and of payments. *)
Record line := Line {
  received : N; paid : N; early : N; stray : N; advances : N; payments : N }.
Definition blank_line : line := Line 0 0 0 0 0 0.
Definition add_line (s t : line) : line :=
  Line (received s + received t) (paid s + paid t) (early s + early t) (stray s + stray t)
       (advances s + advances t) (payments s + payments t).
Definition line_of (e : env) (ck : pubkey) (w : world) (ev : event) (w' : world) (ks : list pubkey) : line :=
  let x := advance e ck w w' in
  Line (x * deposit e w ck / 10 ^ 18) (sum_over (holder_claim_of e w ck) ks)
       (x * staked_in ck w ev) (x * (orphaned e w' ck + unstaked_in ck w ev))
       (if x =? 0 then 0 else 1) (N.of_nat (length ks)).
Definition settled_by (e : env) (ck : pubkey) (w : world) (ev : event) (k : pubkey) : Prop :=
  match ev with Do cx c => settles_account e cx w ck k c | Other => False end.

(** A stretch of history with its books.  [ok] holds of every stake account after each
    step; no keeper payment goes to the config itself. *)
Inductive holder_books (e : env) (ck : pubkey) (ok : world -> world -> delegation -> Prop) (w0 : world) :
  world -> line -> Prop :=
| hbooks_start : holder_books e ck ok w0 w0 blank_line
| hbooks_step w t ev w' ks : holder_books e ck ok w0 w t -> step e w ev w' ->
    (forall cx c, ev = Do cx c -> keeper_in c <> Some ck) ->
    List.NoDup ks -> (forall k, In k ks <-> settled_by e ck w ev k) ->
    (forall k d, stake_of e w' ck k = Some d -> ok w w' d) ->
    holder_books e ck ok w0 w' (add_line t (line_of e ck w ev w' ks)).
