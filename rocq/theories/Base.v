(** Results, errors and checked machine arithmetic.

    Rust's [Result<_, ProgramError>] becomes [result]; a Rust panic (failed
    [assert!], [unwrap] on an error, slice out of range) is the distinct value
    [Panic].  Unsigned machine integers are [N]; ranges are enforced where the
    code enforces them (checked operations) and wrapping is written out. *)

From Coq Require Export NArith ZArith List Bool Lia.
From stdpp Require Export base gmap fin_maps.
Export ListNotations.

Open Scope N_scope.

(** Program errors (solana [ProgramError], [/repo/program/src/error.rs] l.11-117
    for [StakeError], and the errors of the runtime and of called programs). *)
Inductive stake_error :=
| AmountGreaterThanZero | InvalidTokenOwner | InvalidAccountDataLength | InvalidMint
| CloseAuthorityNotNone | DelegateNotNone | InvalidAuthority | AuthorityNotSet
| InsufficientStakeAmount | InvalidAmount | MaximumDeactivationAmountExceeded
| ActiveUnstakeCooldown | IncorrectVaultAccount | InvalidDestinationAccount
| UndelegatedSolStakeAccount | IncorrectSolStakeAccount | DunaDocumentNotInitialized
| IncorrectVaultPdaAccount | InvalidVaultPdaOwner | InvalidVaultHolderRewardsSeeds.

Inductive error :=
| InvalidArgument | InvalidInstructionData | InvalidAccountData | InsufficientFunds
| IncorrectProgramId | MissingRequiredSignature | AccountAlreadyInitialized
| UninitializedAccount | NotEnoughAccountKeys | AccountBorrowFailed | InvalidSeeds
| BorshIoError | AccountNotRentExempt | InvalidAccountOwner | ArithmeticOverflow
| Stake (e : stake_error)
(* runtime *)
| UnbalancedInstruction | ExternalAccountLamportSpend | ExternalAccountDataModified
| ReadonlyAccountModified
(* called programs *)
| TokenError | RewardsError | SystemError | ViewError.

Inductive result (A : Type) :=
| Ok (a : A)
| Err (e : error)
| Panic.
Arguments Ok {A} a.
Arguments Err {A} e.
Arguments Panic {A}.

Definition bind {A B} (r : result A) (f : A -> result B) : result B :=
  match r with Ok a => f a | Err e => Err e | Panic => Panic end.

Notation "'let*' x ':=' e 'in' k" := (bind e (fun x => k))
  (at level 200, x name, e at level 100, k at level 200, right associativity).
Notation "'let*' ' p ':=' e 'in' k" := (bind e (fun p => k))
  (at level 200, p strict pattern, e at level 100, k at level 200, right associativity).

(** [require!] macro, [/repo/program/src/processor/mod.rs] l.195-211. *)
Definition require (b : bool) (e : error) : result unit := if b then Ok tt else Err e.

(** [assert!]: panics when the condition is false. *)
Definition assert (b : bool) : result unit := if b then Ok tt else Panic.

Notation U16 := 65536.
Notation U64 := 18446744073709551616.
Notation U128 := 340282366920938463463374607431768211456.

(** [u64::checked_add(..).ok_or(ArithmeticOverflow)?] *)
Definition add64 (a b : N) : result N :=
  if a + b <? U64 then Ok (a + b) else Err ArithmeticOverflow.
(** [checked_sub(..).ok_or(ArithmeticOverflow)?] *)
Definition csub (a b : N) : result N :=
  if b <=? a then Ok (a - b) else Err ArithmeticOverflow.
(** [u128::checked_mul(..).ok_or(ArithmeticOverflow)?] *)
Definition mul128 (a b : N) : result N :=
  if a * b <? U128 then Ok (a * b) else Err ArithmeticOverflow.
(** [u64::try_from(..).ok().ok_or(ArithmeticOverflow)?] *)
Definition to64 (a : N) : result N := if a <? U64 then Ok a else Err ArithmeticOverflow.
(** [u128::wrapping_add] and [u128::wrapping_sub]. *)
Definition wadd128 (a b : N) : N := (a + b) mod U128.
Definition wsub128 (a b : N) : N := (a + U128 - b mod U128) mod U128.
(** [u64::saturating_add] *)
Definition sat_add64 (a b : N) : N := N.min (a + b) (U64 - 1).
