(** Byte layout of the program's own accounts (bytemuck [Pod] structs,
    little-endian) and the decoding that links raw bytes to [adata]. *)
From Verif Require Import Base Types.

(** Little-endian integers ([to_le_bytes] / [from_le_bytes]). *)
Fixpoint le_bytes (n : nat) (x : N) : list N :=
  match n with O => [] | S n => x mod 256 :: le_bytes n (x / 256) end.
Fixpoint le_num (b : list N) : N :=
  match b with [] => 0 | x :: r => x + 256 * le_num r end.

(** [array_ref![b, off, len]] *)
Definition slice (b : list N) (off len : nat) : list N := firstn len (skipn off b).
Definition num_at (b : list N) (off len : nat) : N := le_num (slice b off len).

(** Discriminators: first 8 bytes of sha256 of the [discriminator_hash_input]
    attribute ([config.rs] l.10, [sol_staker_stake.rs] l.17, [validator_stake.rs] l.16). *)
Definition disc_config : list N := [29; 229; 41; 226; 127; 163; 182; 254].
Definition disc_sol : list N := [192; 163; 150; 81; 162; 252; 198; 62].
Definition disc_val : list N := [197; 173; 152; 124; 46; 252; 77; 146].

(** [Config::LEN] ([config.rs] l.64), [ValidatorStake::LEN], [SolStakerStake::LEN]. *)
Definition CONFIG_LEN : N := 192.
Definition VAL_LEN : N := 144.
Definition SOL_LEN : N := 168.

(** [Delegation] bytes, [state/mod.rs] l.229-252: 120 bytes. *)
Definition enc_delegation (d : delegation) : list N :=
  le_bytes 8 (staked d) ++ le_bytes 8 (effective d) ++ le_bytes 8 (cooldown d) ++
  le_bytes 32 (authority d) ++ le_bytes 32 (vote d) ++
  le_bytes 16 (last_holder d) ++ le_bytes 16 (last_stake d).
Definition dec_delegation (b : list N) : delegation :=
  Del (num_at b 0 8) (num_at b 8 8) (num_at b 16 8) (num_at b 24 32) (num_at b 56 32)
      (num_at b 88 16) (num_at b 104 16).

(** [Config] bytes, [config.rs] l.11-61: 192 bytes. *)
Definition enc_config (c : config) : list N :=
  disc_config ++ le_bytes 32 (cfg_authority c) ++ le_bytes 32 (cfg_slash c) ++
  le_bytes 32 (cfg_vault c) ++ le_bytes 8 (cfg_cooldown c) ++ le_bytes 8 (cfg_effective c) ++
  le_bytes 8 (cfg_sync c) ++ le_bytes 8 (cfg_last c) ++ le_bytes 32 (cfg_duna c) ++
  le_bytes 16 (cfg_acc c) ++ le_bytes 2 (cfg_bps c) ++ le_bytes 1 (cfg_bump c) ++
  le_bytes 5 (cfg_padding c).
Definition dec_config (b : list N) : config :=
  Cfg (num_at b 8 32) (num_at b 40 32) (num_at b 72 32) (num_at b 104 8) (num_at b 112 8)
      (num_at b 120 8) (num_at b 128 8) (num_at b 136 32) (num_at b 168 16) (num_at b 184 2)
      (num_at b 186 1) (num_at b 187 5).

(** [ValidatorStake] bytes: 144. *)
Definition enc_val (v : vstake) : list N :=
  disc_val ++ enc_delegation (v_del v) ++ le_bytes 8 (v_total v) ++ le_bytes 8 (v_min v).
Definition dec_val (b : list N) : vstake :=
  VStake (dec_delegation (slice b 8 120)) (num_at b 128 8) (num_at b 136 8).

(** [SolStakerStake] bytes: 168. *)
Definition enc_sol (s : sstake) : list N :=
  disc_sol ++ enc_delegation (s_del s) ++ le_bytes 8 (s_lamports s) ++ le_bytes 32 (s_native s).
Definition dec_sol (b : list N) : sstake :=
  SStake (dec_delegation (slice b 8 120)) (num_at b 128 8) (num_at b 136 32).

Definition bytes_eqb (a b : list N) : bool := bool_decide (a = b).

(** The typed reading of raw account bytes. *)
Definition decode (b : list N) : adata :=
  if (length b =? 192)%nat && bytes_eqb (slice b 0 8) disc_config then DConfig (dec_config b)
  else if (length b =? 144)%nat && bytes_eqb (slice b 0 8) disc_val then DVal (dec_val b)
  else if (length b =? 168)%nat && bytes_eqb (slice b 0 8) disc_sol then DSol (dec_sol b)
  else DRaw b.

(** The bytes of an account. *)
Definition raw_bytes (e : env) (d : adata) : list N :=
  match d with
  | DRaw b => b
  | DConfig c => enc_config c
  | DVal v => enc_val v
  | DSol s => enc_sol s
  | _ => e_bytes e d
  end.

(** [data_len()] / [data_is_empty()] *)
Definition data_len (d : adata) : N :=
  match d with
  | DRaw b => N.of_nat (length b)
  | DConfig _ => CONFIG_LEN
  | DVal _ => VAL_LEN
  | DSol _ => SOL_LEN
  | DToken _ => 165
  | DMint _ => 82
  | DHolder _ => 32
  | DVote _ => 3762
  end.
Definition data_empty (d : adata) : bool := data_len d =? 0.

(** [unpack_initialized(_mut)] at byte level, [processor/mod.rs] l.214-235:
    [bytemuck::try_from_bytes] fails on a wrong length, [is_initialized] compares
    the discriminator ([config.rs] l.67-69 and the two stake types). *)
Definition unpack_bytes {A} (len : nat) (disc : list N) (dec : list N -> A) (b : list N) : result A :=
  let* _ := require (length b =? len)%nat InvalidAccountData in
  let* _ := require (bytes_eqb (slice b 0 8) disc) UninitializedAccount in
  Ok (dec b).

(** The same on typed contents. *)
Definition unpack_config (d : adata) : result config :=
  match d with
  | DConfig c => Ok c
  | _ => if data_len d =? CONFIG_LEN then Err UninitializedAccount else Err InvalidAccountData
  end.
Definition unpack_val (d : adata) : result vstake :=
  match d with
  | DVal v => Ok v
  | _ => if data_len d =? VAL_LEN then Err UninitializedAccount else Err InvalidAccountData
  end.
Definition unpack_sol (d : adata) : result sstake :=
  match d with
  | DSol s => Ok s
  | _ => if data_len d =? SOL_LEN then Err UninitializedAccount else Err InvalidAccountData
  end.

(** [Config::is_uninitialized] ([config.rs] l.72-74): the discriminator is all zero. *)
Definition config_uninitialized (e : env) (d : adata) : bool :=
  bytes_eqb (slice (raw_bytes e d) 0 8) [0;0;0;0;0;0;0;0].

(** SPL [TokenAccount::unpack], [Mint::unpack] (wrong length or not initialised
    is an error), and [VoteState::is_correct_size_and_initialized]. *)
Definition unpack_token (d : adata) : result token :=
  match d with
  | DToken t => Ok t
  | _ => if data_len d =? 165 then Err UninitializedAccount else Err InvalidAccountData
  end.
Definition unpack_mint (d : adata) : result mint :=
  match d with
  | DMint m => Ok m
  | _ => if data_len d =? 82 then Err UninitializedAccount else Err InvalidAccountData
  end.
Definition vote_withdrawer (d : adata) : result pubkey :=
  match d with DVote w => Ok w | _ => Err InvalidAccountData end.
(** [HolderRewards::try_from] (borsh, no owner check). *)
Definition unpack_holder (d : adata) : result holder :=
  match d with DHolder h => Ok h | _ => Err BorshIoError end.
