(** The documented byte formats, written without the encoder or the decoder. *)
From Verif Require Import Base Types Instr.

(** [b] is the [n]-byte little-endian form of [x]. *)
Fixpoint value (b : list N) : N := match b with [] => 0 | x :: r => x + 256 * value r end.
Definition bytes (b : list N) : Prop := Forall (fun x => x < 256) b.
Definition is_le (n : nat) (x : N) (b : list N) : Prop := length b = n /\ bytes b /\ value b = x.

(** Instruction data: a tag byte and the fields; instructions without fields
    tolerate trailing bytes. *)
Inductive wire : instruction -> list N -> Prop :=
| W0 s a c b y d s' a' c' b' y' d' :
    is_le 32 s s' -> is_le 32 a a' -> is_le 8 c c' -> is_le 2 b b' -> is_le 8 y y' -> is_le 32 d d' ->
    wire (IInitializeConfig s a c b y d) (0 :: s' ++ a' ++ c' ++ b' ++ y' ++ d')
| W1 r : wire IInitializeValidatorStake (1 :: r)
| W2 x x' : is_le 8 x x' -> wire (IValidatorStakeTokens x) (2 :: x')
| W3 r : wire IHarvestHolderRewards (3 :: r)
| W4 r : wire IHarvestValidatorRewards (4 :: r)
| W5 x x' : is_le 8 x x' -> wire (ISlashValidatorStake x) (5 :: x')
| W6a : wire (ISetAuthority AuthConfig) [6; 0]
| W6b : wire (ISetAuthority AuthSlash) [6; 1]
| W7a x x' : is_le 8 x x' -> wire (IUpdateConfig (CooldownTimeSeconds x)) (7 :: 0 :: x')
| W7b x x' : is_le 2 x x' -> wire (IUpdateConfig (MaxDeactivationBasisPoints x)) (7 :: 1 :: x')
| W7c x x' : is_le 8 x x' -> wire (IUpdateConfig (SyncRewardsLamports x)) (7 :: 2 :: x')
| W8 r : wire IInitializeSolStakerStake (8 :: r)
| W9 x x' : is_le 8 x x' -> wire (ISolStakerStakeTokens x) (9 :: x')
| W10 r : wire IHarvestSolStakerRewards (10 :: r)
| W11 x x' : is_le 8 x x' -> wire (IUnstakeTokens x) (11 :: x')
| W12 x x' : is_le 8 x x' -> wire (ISlashSolStakerStake x) (12 :: x')
| W13 x x' : is_le 8 x x' -> wire (ISolStakerMoveTokens x) (13 :: x')
| W14 x x' : is_le 8 x x' -> wire (IValidatorOverrideStakedLamports x) (14 :: x')
| W15 r : wire IValidatorSyncAuthority (15 :: r).

(** Field values that have a byte form (Rust's types). *)
Definition instr_in_range (i : instruction) : Prop :=
  match i with
  | IInitializeConfig s a c b y d =>
      s < 2 ^ 256 /\ a < 2 ^ 256 /\ c < 2 ^ 64 /\ b < 2 ^ 16 /\ y < 2 ^ 64 /\ d < 2 ^ 256
  | IUpdateConfig (CooldownTimeSeconds x) => x < 2 ^ 64
  | IUpdateConfig (MaxDeactivationBasisPoints x) => x < 2 ^ 16
  | IUpdateConfig (SyncRewardsLamports x) => x < 2 ^ 64
  | IValidatorStakeTokens x | ISlashValidatorStake x | ISolStakerStakeTokens x | IUnstakeTokens x
  | ISlashSolStakerStake x | ISolStakerMoveTokens x | IValidatorOverrideStakedLamports x => x < 2 ^ 64
  | _ => True
  end.

(** Account data: the delegation block and the three account types. *)
Inductive wire_del : delegation -> list N -> Prop :=
| WD d s e c a v h r :
    is_le 8 (staked d) s -> is_le 8 (effective d) e -> is_le 8 (cooldown d) c ->
    is_le 32 (authority d) a -> is_le 32 (vote d) v ->
    is_le 16 (last_holder d) h -> is_le 16 (last_stake d) r ->
    wire_del d (s ++ e ++ c ++ a ++ v ++ h ++ r).
Inductive wire_config : config -> list N -> Prop :=
| WConfig c a s v cd ef sy la du ac bp bu pa :
    is_le 32 (cfg_authority c) a -> is_le 32 (cfg_slash c) s -> is_le 32 (cfg_vault c) v ->
    is_le 8 (cfg_cooldown c) cd -> is_le 8 (cfg_effective c) ef -> is_le 8 (cfg_sync c) sy ->
    is_le 8 (cfg_last c) la -> is_le 32 (cfg_duna c) du -> is_le 16 (cfg_acc c) ac ->
    is_le 2 (cfg_bps c) bp -> is_le 1 (cfg_bump c) bu -> is_le 5 (cfg_padding c) pa ->
    wire_config c ([29; 229; 41; 226; 127; 163; 182; 254] ++
                   a ++ s ++ v ++ cd ++ ef ++ sy ++ la ++ du ++ ac ++ bp ++ bu ++ pa).
Inductive wire_val : vstake -> list N -> Prop :=
| WVal v d t m :
    wire_del (v_del v) d -> is_le 8 (v_total v) t -> is_le 8 (v_min v) m ->
    wire_val v ([197; 173; 152; 124; 46; 252; 77; 146] ++ d ++ t ++ m).
Inductive wire_sol : sstake -> list N -> Prop :=
| WSol s d l n :
    wire_del (s_del s) d -> is_le 8 (s_lamports s) l -> is_le 32 (s_native s) n ->
    wire_sol s ([192; 163; 150; 81; 162; 252; 198; 62] ++ d ++ l ++ n).

Definition del_in_range (d : delegation) : Prop :=
  staked d < 2 ^ 64 /\ effective d < 2 ^ 64 /\ cooldown d < 2 ^ 64 /\ authority d < 2 ^ 256 /\
  vote d < 2 ^ 256 /\ last_holder d < 2 ^ 128 /\ last_stake d < 2 ^ 128.
Definition config_in_range (c : config) : Prop :=
  cfg_authority c < 2 ^ 256 /\ cfg_slash c < 2 ^ 256 /\ cfg_vault c < 2 ^ 256 /\
  cfg_cooldown c < 2 ^ 64 /\ cfg_effective c < 2 ^ 64 /\ cfg_sync c < 2 ^ 64 /\ cfg_last c < 2 ^ 64 /\
  cfg_duna c < 2 ^ 256 /\ cfg_acc c < 2 ^ 128 /\ cfg_bps c < 2 ^ 16 /\ cfg_bump c < 2 ^ 8 /\
  cfg_padding c < 2 ^ 40.
Definition val_in_range (v : vstake) : Prop := del_in_range (v_del v) /\ v_total v < 2 ^ 64 /\ v_min v < 2 ^ 64.
Definition sol_in_range (s : sstake) : Prop :=
  del_in_range (s_del s) /\ s_lamports s < 2 ^ 64 /\ s_native s < 2 ^ 256.
