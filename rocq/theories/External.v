(** The programs the stake program calls.

    SPL token 6.0 [TransferChecked]/[BurnChecked], system [Allocate]/[Assign],
    and the rewards program's [Deposit]/[Withdraw]/[HarvestRewards], the latter
    as read from the deployed binary the repository tests with
    ([/repo/clients/rust/tests/fixtures/paladin_rewards_program.so]).  All their
    failures are collapsed into one error each.  [sig] says which keys sign the
    call (transaction signers plus the PDA of the signer seeds). *)
From Verif Require Import Base Types Layout.

(** A token account owned by the token program. *)
Definition token_at (e : env) (w : world) (k : pubkey) : result token :=
  let a := get w k in
  let* _ := require (own a =? e_token e) TokenError in
  match dat a with DToken t => Ok t | _ => Err TokenError end.
Definition mint_at (e : env) (w : world) (k : pubkey) : result mint :=
  let a := get w k in
  let* _ := require (own a =? e_token e) TokenError in
  match dat a with DMint m => Ok m | _ => Err TokenError end.

(** A delegate's spending lowers the delegated amount and ends at zero. *)
Definition spend_delegated (t : token) (amount : N) : token :=
  let left := t_delegated t - amount in
  Tok (t_mint t) (t_owner t) (t_amount t) (if left =? 0 then None else t_delegate t) left
      (t_close t) (t_frozen t).

(** Owner or delegate authorisation; returns the account with its delegated
    amount reduced when a delegate spends. *)
Definition token_authorise (sig : pubkey -> bool) (t : token) (auth amount : N) : result token :=
  let by_owner := let* _ := require ((auth =? t_owner t) && sig auth) TokenError in Ok t in
  match t_delegate t with
  | Some d =>
      if d =? auth then
        let* _ := require (sig auth) TokenError in
        let* _ := require (amount <=? t_delegated t) TokenError in
        Ok (spend_delegated t amount)
      else by_owner
  | None => by_owner
  end.

Definition token_transfer (e : env) (sig : pubkey -> bool) (w : world)
    (src mnt dst auth amount : N) : result world :=
  let* s := token_at e w src in
  let* d := token_at e w dst in
  let* _ := require (negb (t_frozen s) && negb (t_frozen d)) TokenError in
  let* _ := require (amount <=? t_amount s) TokenError in
  let* _ := require ((t_mint s =? t_mint d) && (t_mint s =? mnt)) TokenError in
  let* _ := mint_at e w mnt in
  let* s' := token_authorise sig s auth amount in
  if src =? dst then Ok w
  else
    let* _ := require (t_amount d + amount <? U64) TokenError in
    let w := setd w src (DToken (set_t_amount s' (t_amount s - amount))) in
    Ok (setd w dst (DToken (set_t_amount d (t_amount d + amount)))).

Definition token_burn (e : env) (sig : pubkey -> bool) (w : world)
    (src mnt auth amount : N) : result world :=
  let* s := token_at e w src in
  let* m := mint_at e w mnt in
  let* _ := require (negb (t_frozen s)) TokenError in
  let* _ := require (amount <=? t_amount s) TokenError in
  let* _ := require (t_mint s =? mnt) TokenError in
  let* s' := token_authorise sig s auth amount in
  let* _ := require (amount <=? m_supply m) TokenError in
  let w := setd w src (DToken (set_t_amount s' (t_amount s - amount))) in
  Ok (setd w mnt (DMint (Mnt (m_supply m - amount) (m_decimals m)))).

(** System [Assign]: a no-op when already owned by the target. *)
Definition system_assign (sig : pubkey -> bool) (w : world) (k owner : pubkey) : result world :=
  if own (get w k) =? owner then Ok w
  else
    let* _ := require (sig k && (own (get w k) =? 0)) SystemError in
    Ok (seto w k owner).
(** System [Allocate]: zeroed data of the given size. *)
Definition system_allocate (sig : pubkey -> bool) (w : world) (k len : N) : result world :=
  let* _ := require (sig k && (own (get w k) =? 0) && data_empty (dat (get w k))) SystemError in
  Ok (setd w k (DRaw (repeat 0 (N.to_nat len)))).

(** Reward owed to a depositor: rate difference times deposit, scaled down. *)
Definition pool_reward (acc last deposited : N) : result N :=
  let m := wsub128 acc last in
  if m =? 0 then Ok 0
  else if m * deposited <? U128
       then (let r := (m * deposited) / 1000000000000000000 in
             if r <? U64 then Ok r else Err RewardsError)
       else Err RewardsError.

(** Lamports the pool can pay: everything above the rent minimum of its 64 bytes. *)
Definition pool_available (e : env) (w : world) (pool : pubkey) : N :=
  lam (get w pool) - e_rent e 64.

(** Accounts every rewards instruction validates: the pool is the mint's pool,
    the pool token account is a token account of the pool, the holder account is
    the one of [owner], and [owner] signs. *)
Definition rewards_checked (e : env) (sig : pubkey -> bool) (w : world)
    (pool ptok vhr mnt owner : pubkey) : result holder :=
  let* _ := require ((pool =? e_pool e mnt) && (own (get w pool) =? e_rewards e)) RewardsError in
  let* p := token_at e w ptok in
  let* _ := require ((t_owner p =? pool) && (t_mint p =? mnt)) RewardsError in
  let* _ := require (sig owner) RewardsError in
  let* _ := require ((vhr =? e_holder e owner) && (own (get w vhr) =? e_rewards e)) RewardsError in
  match dat (get w vhr) with DHolder h => Ok h | _ => Err RewardsError end.

(** Lamports from the pool to the depositor. *)
Definition pool_pay (w : world) (pool owner r : N) : result world :=
  if r =? 0 then Ok w
  else
    let* _ := require (r <=? lam (get w pool)) RewardsError in
    let w := setl w pool (lam (get w pool) - r) in
    let* _ := require (lam (get w owner) + r <? U64) RewardsError in
    Ok (setl w owner (lam (get w owner) + r)).

(** [HarvestRewards]: settle the holder against accumulator [acc], pay. *)
Definition rewards_harvest (e : env) (sig : pubkey -> bool) (w : world)
    (pool ptok vhr mnt owner acc : N) : result world :=
  let* h := rewards_checked e sig w pool ptok vhr mnt owner in
  let* r := pool_reward acc (h_last h) (h_deposited h) in
  let* _ := require (r <=? pool_available e w pool) RewardsError in
  let w := setd w vhr (DHolder (Hold acc (h_deposited h))) in
  pool_pay w pool owner r.

(** [Deposit]: settle (the old deposit earns up to [acc], the holder's
    accumulator moves to [acc]), then take the tokens, then pay the reward. *)
Definition rewards_deposit (e : env) (sig : pubkey -> bool) (w : world)
    (pool ptok vhr tacc mnt owner tokprog amount acc : N) : result world :=
  let* h := rewards_checked e sig w pool ptok vhr mnt owner in
  let* t := token_at e w tacc in
  let* _ := require ((t_owner t =? owner) && (t_mint t =? mnt)) RewardsError in
  let* _ := require (tokprog =? e_token e) RewardsError in
  let* _ := require (amount <=? t_amount t) RewardsError in
  let* r := pool_reward acc (h_last h) (h_deposited h) in
  let* _ := require (r <=? pool_available e w pool) RewardsError in
  let* _ := require (h_deposited h + amount <? U64) RewardsError in
  let w := setd w vhr (DHolder (Hold acc (h_deposited h + amount))) in
  let* w := token_transfer e sig w tacc mnt ptok owner amount in
  pool_pay w pool owner r.

(** [Withdraw]: settle unless the pool cannot pay (then the accumulator stays),
    give the tokens back, pay the reward.  [u64::MAX] means everything. *)
Definition rewards_withdraw (e : env) (sig : pubkey -> bool) (w : world)
    (pool ptok vhr tacc mnt owner tokprog amount acc : N) : result world :=
  let* h := rewards_checked e sig w pool ptok vhr mnt owner in
  let* t := token_at e w tacc in
  let* _ := require ((t_owner t =? owner) && (t_mint t =? mnt)) RewardsError in
  let* _ := require (tokprog =? e_token e) RewardsError in
  let amount := if amount =? U64 - 1 then h_deposited h else amount in
  let* p := token_at e w ptok in
  let* _ := require (negb (h_deposited h =? 0) && (h_deposited h <=? t_amount p)) RewardsError in
  let* _ := require (amount <=? h_deposited h) RewardsError in
  let* r := pool_reward acc (h_last h) (h_deposited h) in
  let payable := r <=? pool_available e w pool in
  let r := if payable then r else 0 in
  let last := if payable then acc else h_last h in
  let w := setd w vhr (DHolder (Hold last (h_deposited h - amount))) in
  let* w := token_transfer e (fun k => k =? pool) w ptok mnt tacc pool amount in
  pool_pay w pool owner r.
