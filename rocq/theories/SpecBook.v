(** The staking book: a small machine that says what the program is for.  It knows
    nothing of accounts, addresses, reward rates or called programs; a page holds the
    terms of one config, an entry one stake. *)
From Verif Require Import Base Types Instr Processor Runtime History Spec.

Record page := Page {
  pg_authority : pubkey;   (* may change the terms, and give validators a floor *)
  pg_slash : pubkey;       (* may slash *)
  pg_vault : pubkey;
  pg_cooldown : N;         (* seconds between two withdrawals *)
  pg_bps : N;              (* share of a stake that may leave at once *)
  pg_sync : N;             (* most a keeper gets *)
  pg_duna : N;
  pg_total : N;            (* what all entries count for *)
}.
(** The SOL behind an entry: that of a validator's stakers, or the floor it was given;
    that of one native stake account. *)
Inductive backing := Stakers (sol floor : N) | Native (sol : N) (account : pubkey).
Record entry := Entry {
  en_tokens : N; en_counted : N; en_until : N; en_owner : pubkey; en_vote : pubkey; en_back : backing }.
Record book := Book { bk_page : option page; bk_entry : pubkey -> option entry }.

(** ** The machine *)
Definition sol_behind (b : backing) : N := match b with Stakers s f => N.max s f | Native s _ => s end.
(** Tokens count up to 1.3 per lamport behind them. *)
Definition recount (en : entry) : entry :=
  Entry (en_tokens en) (N.min (en_tokens en) (cap (sol_behind (en_back en)))) (en_until en) (en_owner en)
        (en_vote en) (en_back en).
(** Writing an entry keeps the page's total. *)
Definition write (b : book) (k : pubkey) (en : entry) : book :=
  let old := match bk_entry b k with Some x => en_counted x | None => 0 end in
  Book (option_map (fun p => Page (pg_authority p) (pg_slash p) (pg_vault p) (pg_cooldown p) (pg_bps p)
                                  (pg_sync p) (pg_duna p) (pg_total p - old + en_counted en)) (bk_page b))
       (fun x => if x =? k then Some en else bk_entry b x).
Definition with_tokens (n : N) (en : entry) : entry :=
  Entry n (en_counted en) (en_until en) (en_owner en) (en_vote en) (en_back en).
Definition with_until (t : N) (en : entry) : entry :=
  Entry (en_tokens en) (en_counted en) t (en_owner en) (en_vote en) (en_back en).
Definition with_owner (o : pubkey) (en : entry) : entry :=
  Entry (en_tokens en) (en_counted en) (en_until en) o (en_vote en) (en_back en).
Definition with_back (s : backing) (en : entry) : entry :=
  Entry (en_tokens en) (en_counted en) (en_until en) (en_owner en) (en_vote en) s.

Inductive op :=
| Idle                                            (* rewards are paid, the book stays *)
| Open (p : page)
| NewValidator (k vote owner : pubkey)
| NewStaker (k native vote owner : pubkey) (sol : N)
| Deposit (k : pubkey) (n : N)
| Withdraw (k : pubkey) (n now : N)
| Slash (k : pubkey) (n : N)
| Move (src dst : pubkey) (n : N)
| Report (k vote : pubkey) (sol : N)              (* where the native stake is, and how much *)
| Floor (k : pubkey) (n : N)
| Owner (k owner : pubkey)
| NewAuthority (a : pubkey) | NewSlash (a : pubkey)
| Terms (f : config_field).

Definition obind {A B} (x : option A) (f : A -> option B) : option B := match x with Some a => f a | None => None end.
Definition allow {A} (c : bool) (r : option A) : option A := if c then r else None.
(** The lamports of a validator's stakers change. *)
Definition restake (b : book) (k : pubkey) (f : N -> option N) : option book :=
  obind (bk_entry b k) (fun en =>
  match en_back en with
  | Stakers s fl => obind (f s) (fun s' => Some (write b k (recount (with_back (Stakers s' fl) en))))
  | Native _ _ => None
  end).
(** What an operation does, if it is allowed to those who signed; [addr] is where the
    entry of a validator is. *)
Definition apply (signs : pubkey -> bool) (addr : pubkey -> pubkey) (b : book) (o : op) : option book :=
  match o with
  | Idle => Some b
  | Open p =>
      match bk_page b with
      | Some _ => None
      | None => allow ((pg_bps p <=? 10000) && (pg_total p =? 0)) (Some (Book (Some p) (bk_entry b)))
      end
  | NewValidator k v o =>
      match bk_entry b k with
      | Some _ => None
      | None => allow (k =? addr v) (Some (write b k (Entry 0 0 0 o v (Stakers 0 0))))
      end
  | NewStaker k nat v o sol =>
      match bk_entry b k, bk_entry b (addr v) with
      | None, Some (Entry t c u ow vt (Stakers s fl)) =>
          (* the validator counts for what it did until it is next looked at *)
          Some (write (write b k (Entry 0 0 0 o v (Native sol nat))) (addr v) (Entry t c u ow vt (Stakers (s + sol) fl)))
      | _, _ => None
      end
  | Deposit k n =>
      obind (bk_entry b k) (fun en =>
      allow ((0 <? n) && (en_tokens en + n <? 2 ^ 64))
        (Some (write b k (recount (with_tokens (en_tokens en + n) en)))))
  | Withdraw k n now =>
      obind (bk_page b) (fun p => obind (bk_entry b k) (fun en =>
      allow (signs (en_owner en) && (en_until en <=? now) && (n <=? en_tokens en * pg_bps p / 10000))
        (Some (write b k (recount (with_until (N.min (now + pg_cooldown p) (2 ^ 64 - 1))
                                     (with_tokens (en_tokens en - n) en)))))))
  | Slash k n =>
      obind (bk_page b) (fun p => obind (bk_entry b k) (fun en =>
      allow ((0 <? n) && negb (pg_slash p =? 0) && signs (pg_slash p))
        (Some (write b k (recount (with_tokens (en_tokens en - n) en))))))
  | Move src dst n =>
      obind (bk_entry b src) (fun s => obind (bk_entry b dst) (fun d =>
      allow (negb (src =? dst) && signs (en_owner s) && (en_owner s =? en_owner d) && (n <=? en_tokens s)
             && (en_tokens d + n <? 2 ^ 64))
        (Some (write (write b src (recount (with_tokens (en_tokens s - n) s))) dst
                 (recount (with_until (N.max (en_until s) (en_until d)) (with_tokens (en_tokens d + n) d)))))))
  | Report k v sol =>
      match bk_entry b k with
      | Some (Entry t c u o v0 (Native s0 nat)) =>
          if (v =? v0) && (sol =? s0) then Some b else
          obind (if v0 =? 0 then Some b else restake b (addr v0) (fun s => allow (s0 <=? s) (Some (s - s0)))) (fun b1 =>
          let joins := negb (v =? 0) && match bk_entry b1 (addr v) with Some _ => true | None => false end in
          obind (if joins then restake b1 (addr v) (fun s => allow (s + sol <? 2 ^ 64) (Some (s + sol))) else Some b1) (fun b2 =>
          Some (write b2 k (recount (Entry t c u o (if joins then v else 0) (Native (if joins then sol else 0) nat))))))
      | _ => None
      end
  | Floor k n =>
      obind (bk_page b) (fun p => obind (bk_entry b k) (fun en =>
      match en_back en with
      | Stakers s _ => allow (negb (pg_authority p =? 0) && signs (pg_authority p))
                         (Some (write b k (recount (with_back (Stakers s n) en))))
      | Native _ _ => None
      end))
  | Owner k o =>
      obind (bk_entry b k) (fun en =>
      match en_back en with Stakers _ _ => Some (write b k (with_owner o en)) | Native _ _ => None end)
  | NewAuthority a =>
      obind (bk_page b) (fun p => allow (negb (pg_authority p =? 0) && signs (pg_authority p))
        (Some (Book (Some (Page a (pg_slash p) (pg_vault p) (pg_cooldown p) (pg_bps p) (pg_sync p) (pg_duna p) (pg_total p)))
                    (bk_entry b))))
  | NewSlash a =>
      obind (bk_page b) (fun p => allow (negb (pg_slash p =? 0) && signs (pg_slash p))
        (Some (Book (Some (Page (pg_authority p) a (pg_vault p) (pg_cooldown p) (pg_bps p) (pg_sync p) (pg_duna p) (pg_total p)))
                    (bk_entry b))))
  | Terms f =>
      obind (bk_page b) (fun p => allow (negb (pg_authority p =? 0) && signs (pg_authority p))
      (let new cd bps sy := Some (Book (Some (Page (pg_authority p) (pg_slash p) (pg_vault p) cd bps sy (pg_duna p) (pg_total p)))
                                       (bk_entry b)) in
       match f with
       | CooldownTimeSeconds x => new x (pg_bps p) (pg_sync p)
       | MaxDeactivationBasisPoints x => allow (x <=? 10000) (new (pg_cooldown p) x (pg_sync p))
       | SyncRewardsLamports x => new (pg_cooldown p) (pg_bps p) x
       end))
  end.

(** ** What the book of a config says, read off the accounts *)
Definition page_of (e : env) (w : world) (ck : pubkey) : option page :=
  if own (get w ck) =? e_prog e then
    match dat (get w ck) with
    | DConfig c => Some (Page (cfg_authority c) (cfg_slash c) (cfg_vault c) (cfg_cooldown c) (cfg_bps c) (cfg_sync c)
                              (cfg_duna c) (cfg_effective c))
    | _ => None
    end
  else None.
Definition entry_of (e : env) (w : world) (ck k : pubkey) : option entry :=
  let read d back := Entry (staked d) (effective d) (cooldown d) (authority d) (vote d) back in
  if own (get w k) =? e_prog e then
    match dat (get w k) with
    | DVal v => if k =? e_val e (vote (v_del v)) ck then Some (read (v_del v) (Stakers (v_total v) (v_min v))) else None
    | DSol s => if k =? e_sol e (s_native s) ck then Some (read (s_del s) (Native (s_lamports s) (s_native s))) else None
    | _ => None
    end
  else None.
Definition book_of (e : env) (w : world) (ck : pubkey) : book := Book (page_of e w ck) (entry_of e w ck).
Definition same_book (b b' : book) : Prop :=
  bk_page b = bk_page b' /\ forall k, bk_entry b k = bk_entry b' k.
Definition blank : book := Book None (fun _ => None).

(** ** What an instruction asks for: the config, and the operation.  From the outside it
    takes the vote account's withdrawer, the clock and the stake view program's answer. *)
Definition withdrawer_of (w : world) (v : pubkey) : pubkey := match dat (get w v) with DVote x => x | _ => 0 end.
Definition request (w : world) (cx : ctx) (c : call) : pubkey * op :=
  let seen (f : view -> op) := match c_view cx with Some x => f x | None => Idle end in
  match c with
  | CInitializeConfig a s au cd b sy du => (ic_config a, Open (Page au s (ic_vault a) cd b sy du 0))
  | CInitializeValidatorStake a => (iv_config a, NewValidator (iv_stake a) (iv_vote a) (withdrawer_of w (iv_vote a)))
  | CInitializeSolStakerStake a =>
      (is_config a, seen (fun x => NewStaker (is_stake a) (is_native a) (vw_vote x) (vw_withdrawer x) (vw_effective x)))
  | CValidatorStakeTokens a n | CSolStakerStakeTokens a n => (st_config a, Deposit (st_stake a) n)
  | CUnstakeTokens a n => (un_config a, Withdraw (un_stake a) n (c_now cx))
  | CSlashValidatorStake a n | CSlashSolStakerStake a n => (sl_config a, Slash (sl_stake a) n)
  | CSolStakerMoveTokens a n => (mv_config a, Move (mv_source a) (mv_dest a) n)
  | CHarvestSolStakerRewards a => (hs_config a, seen (fun x => Report (hs_stake a) (vw_vote x) (vw_effective x)))
  | CValidatorOverride a n => (ov_config a, Floor (ov_stake a) n)
  | CValidatorSyncAuthority a => (sy_config a, Owner (sy_stake a) (withdrawer_of w (sy_vote a)))
  | CSetAuthority a AuthConfig => (sa_account a, NewAuthority (sa_new a))
  | CSetAuthority a AuthSlash => (sa_account a, NewSlash (sa_new a))
  | CUpdateConfig a f => (uc_config a, Terms f)
  | CHarvestValidatorRewards a => (hv_config a, Idle)
  | CHarvestHolderRewards a => (hh_config a, Idle)
  end.
(** What a step of a history does to the book of [ck]. *)
Definition turn (e : env) (ck : pubkey) (w : world) (ev : event) (b : book) : option book :=
  match ev with
  | Other => Some b
  | Do cx c => let (ck', o) := request w cx c in
               if ck' =? ck then apply (signed cx) (fun v => e_val e v ck) b o else Some b
  end.
(** The book kept from the instructions alone, from a world in which it was [b0]. *)
Inductive kept (e : env) (ck : pubkey) (w0 : world) (b0 : book) : world -> book -> Prop :=
| kept_start : kept e ck w0 b0 w0 b0
| kept_step w b ev w' b' : kept e ck w0 b0 w b -> step e w ev w' -> turn e ck w ev b = Some b' ->
    kept e ck w0 b0 w' b'.
(** The operations on [ck] in a history, payments of rewards left out. *)
Inductive asked (e : env) (ck : pubkey) (w0 : world) : list op -> world -> Prop :=
| asked_start : asked e ck w0 [] w0
| asked_here l w cx c w' o : asked e ck w0 l w -> step e w (Do cx c) w' -> request w cx c = (ck, o) -> o <> Idle ->
    asked e ck w0 (l ++ [o]) w'
| asked_idle l w cx c w' ck' o : asked e ck w0 l w -> step e w (Do cx c) w' -> request w cx c = (ck', o) ->
    ck' <> ck \/ o = Idle -> asked e ck w0 l w'
| asked_other l w w' : asked e ck w0 l w -> step e w Other w' -> asked e ck w0 l w'.
