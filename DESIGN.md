# Formal model of paladin-bladesmith/stake-program

The on-chain program in `/repo/program/src` is written out as Gallina functions, and the properties
of `properties.jsonl` are proved about those functions for all inputs and all reachable states.
`MANIFEST.json` maps each property to its theorems. Where the code does not do what one would
expect, the expectation is stated in full and refuted by a theorem ending in `_refuted` with a
concrete reachable history, and what does hold instead is proved.

## 1. What is modelled

| source (`program/src/…`) | model (`rocq/theories/…`) | notes |
|---|---|---|
| `state/mod.rs` (arithmetic, `Delegation`, PDA finders) | `Math.v`, `Types.v`, `Base.v` | u64/u128 ranges, checked, saturating and wrapping operations written out |
| `state/config.rs`, `validator_stake.rs`, `sol_staker_stake.rs` | `Types.v`, `Layout.v` | fields, and the byte layout with discriminators |
| `instruction.rs` l.13-799 (account lists) | `Runtime.v` (`accounts_of`), `Declared.v` (writable/signer attributes) | all sixteen instructions, by position |
| `instruction.rs` l.803-1027 (pack/unpack) | `Instr.v` | byte for byte |
| `processor/mod.rs` (dispatch, `harvest`, `sync_config_lamports`, `sync_effective`, slash helper) | `Processor.v`, `Runtime.v` | |
| `processor/*.rs` (sixteen handlers) | `Processor.v` | one function each; every check in source order with the source's error value |
| `entrypoint.rs` | `Runtime.v` (`process_instruction`) | |
| `error.rs` | `Base.v`, `Client.v` (codes) | error values used by the handlers |
| `state/mod.rs` l.38-154, l.215-221 (seeds, finders, signer seeds) | `Pda.v` | over a parameter for sha256 and the curve test; `env_of` is the `env` made of them |
| `clients/rust/src/pdas.rs`, `clients/js/src/generated/pdas/vault.ts` | `Pda.v` | |
| `clients/rust/src/generated/{instructions,accounts,types,errors}`, `hooked/nullable_address.rs` | `Client.v` | account lists with privileges, instruction data, account readers, error names. |
| the same: `*Builder`, `*Cpi`, `*CpiBuilder` | `RustBuild.v` | one template, with a table transcribed by a script |
| `clients/js/src/generated/{instructions,accounts,types,errors,programs,shared}`, `clients/js/src/hooked`, `clients/rust/src/hooked/nullable_u64.rs` | `JsClient.v` | builders with defaults and optional accounts, parsers, account codecs, nullable codecs, error constants and messages |
| `program/idl.json` | `Idl.v` | transcribed by a script, with a reader of such descriptions |

A handler is a total function `env -> ctx -> accounts -> world -> result world`.

* `world` is a finite map from addresses to accounts (lamports, owner, contents). Two account slots
  with the same address therefore share state, as in the runtime.
* `result` has three outcomes: `Ok`, `Err` (the program returns an error) and `Panic` (an `assert!`,
  `unwrap` or `expect` fires). In both of the latter nothing changes.
* `env` holds what is fixed at deployment: program ids, derived addresses (the PDA functions), the
  rent function.
* `ctx` holds what is chosen per transaction: signers, writable accounts, the clock, the view
  program's answer and the pool's accumulator.
* Contents are typed (`DConfig`, `DVal`, `DSol`, `DToken`, …). Bytes that decode as an initialised
  account of this program are represented by the typed constructor; C28 proves that the typed
  readers used by the handlers agree with the byte decoders of `Layout.v`.

### The surroundings

* **Runtime** (`Runtime.v`, `cpi_check` in `Processor.v`). An instruction fails if it creates or
  destroys lamports or changes an account not passed as writable. At each call to
  another program the accounts handed over so far must together hold the lamports they held when
  the instruction started (this is what C38 is about), and none of them may still be borrowed by the
  caller.
* **SPL token** `TransferChecked` and `BurnChecked` (`External.v`): ownership, mint, freeze, amount,
  owner or delegate authorisation with the delegated amount, overflow.
* **System** `Allocate` and `Assign`.
* **Rewards program** `Deposit`, `Withdraw`, `HarvestRewards`: account checks, accumulator, reward
  formula, the cap by the pool's lamports above rent, token transfer. The behaviour was read from the
  deployed binary the repository tests with (`clients/rust/tests/fixtures/paladin_rewards_program.so`).
  The pool's accumulator after its own update is an input (`c_pool_acc`), so theorems hold for every value.
* **Stake view program**: its answer is an input (`c_view`). Assumed of it: effective stake fits u64,
  and it is zero for an undelegated account.

### Histories

`History.v` defines `reachable`: start from a world in which the program has no initialised account,
then interleave successful instructions with anything else (`rely`). Outside activity is restricted
only by rules that other programs and the runtime enforce:

* it never changes data or owner, and never takes lamports, of an account owned by this program,
  except that an uninitialised account without lamports may be removed (the runtime drops it at the end
  of the transaction);
* accounts given to the program arrive zeroed;
* nobody else signs for the program's derived addresses;
* a token account owned by a vault authority, without delegate or close authority, never loses tokens;
* the vault authority's holder account is created with nothing deposited and then changes only with
  that authority's signature;
* integers stay within their fields.

A failed instruction changes nothing, so failed ones are not part of a history. Transactions with
several instructions are runs of consecutive steps; a transaction that is rolled back is no step.

`Tx.v` adds the end of a transaction: the runtime's rent-state comparison and the removal of accounts without
lamports. `SpecTx.v` defines chains of such transactions, and C75 proves that they are histories in the
sense above, for rent functions that are positive everywhere. It assumes that other programs do not leave an
initialised token or holder account without lamports (`funded`). The incinerator's exemption is left out,
and all accounts are compared, not only the writable ones (the others do not change).

## 2. What is not modelled

* **Hashing.** In most files derived addresses are functions of `env`, with `env_ok` saying that different
  keys give different addresses and that the kinds do not collide. C56 proves `env_ok` for the addresses
  made from the program's seeds, assuming only that the hash has no collisions, that every seed list has a
  usable bump, and that the program ids differ. (The key space of the model is unbounded, so such hashes exist; `toy` is one.)
* **Compute budget, account size limits, executable and rent-epoch flags, logs, return data.**
* **Privileges in calls to other programs** are not checked by the handlers' model but described beside it
  (`Cpi.v`): C90 proves that with the declared privileges and the named programs in their places the runtime permits every call,
  so that an instruction goes through exactly if the modelled checks pass. Without them it only makes more instructions fail,
  so statements about successful instructions are unaffected. Statements that an
  instruction succeeds (C09, C33, C36, C38, C47, C51, C52, C55, C63, C64) are relative to the modelled checks,
  and are about the instruction, not about the rent check at the end of its transaction (for which see C77);
  the writable hypotheses of those theorems cover all accounts the calls write to.
* **Borrow conflicts** are modelled where the program holds a borrow across a call or borrows two
  accounts at once; not for the override address (an account of this program's own derivation
  which is never created, see C31).
* **SPL token multisig owners, wrapped SOL, Token-2022 extensions.** All failures of a called program are one error value.
* **The rewards pool's own account data.** Only its address, owner and lamports are used.
* **The vault token account's program owner.** `InitializeConfig` does not check that it is owned by
  the token program, so this is not an invariant; theorems that need it (C33, C38) say so, and C54 proves
  that staking, unstaking and burning cannot succeed without it.
* Of the JavaScript client: RPC fetching, base58 text, TypeScript types. The codecs and account roles of
  `@solana/web3.js` are modelled from their documented behaviour (range checks, `fixEncoderSize`, `combineCodec`).
* The clients' RPC helpers and scripts.

## 3. Files

| files | content |
|---|---|
| `Base`, `Types`, `Layout`, `Instr`, `Math`, `External`, `Processor`, `Runtime`, `Declared`, `Pda`, `Client`, `JsClient`, `Idl`, `RustBuild`, `Tx`, `Cpi` | the model; no proofs |
| `History` | histories and assumptions about the surroundings |
| `Spec`, `SpecReward`, `SpecSolvency`, `SpecWindow`, `SpecWire`, `SpecLive`, `SpecExact`, `SpecPanic`, `SpecNeeds`, `SpecCan`, `SpecSync`, `SpecPda`, `SpecLocal`, `SpecExit`, `SpecError`, `SpecSheet`, `SpecStray`, `SpecSupply`, `SpecBank`, `SpecDust`, `SpecCpi`, `SpecCause`, `SpecSquat`, `SpecBytes`, `SpecDocs`, `SpecSplit`, `SpecRun`, `SpecOver`, `SpecOrder`, `SpecBook`, `SpecBuild`, `SpecHolder`, `SpecIdl`, `SpecTx`, `SpecShare` | vocabulary of the statements, written against account contents and plain arithmetic, not against the model's helpers |
| `WorldLemmas`, `Arith`, `Effects`, `Handlers` | reading back updates; every internal step and every handler as a relation between worlds |
| `Evolve`, `Sane`, `Wf`, `Totals`, `Caps`, `Stakers`, `Deposits`, `Inv` | the invariants and their preservation by every step |
| `Nets`, `Collect`, `Pays`, `Rewards`, `Flow`, `Solvency`, `Tokens`, `Window`, `Life`, `Gov`, `Touches` | lemmas per theme: rewards, tokens, rate limit, governance, touched accounts |
| `Progress`, `Live`, `LiveTokens`, `LiveStake`, `LiveMore`, `Exact`, `Panics`, `Needs`, `Can`, `Sync` | when handlers succeed, abort, and what success implies |
| `Codec`, `PdaFacts` | byte formats; derived addresses |
| `Local`, `Exit`, `Errors`, `Kinds`, `TxLemmas`, `Books`, `Order` | every handler depends only on the accounts it names; one unstake prepares the next; which errors each helper can give; account kinds; ends of transactions; the staking book under each instruction; exchanging two harvests |
| `Demo`, `DemoTx` | a concrete deployment and histories, used by the cases beside the theorems |
| `Conform`, `ConformInit`, `ConformStake`, `ConformUnstake`, `ConformSlash`, `ConformSync`, `ConformUnit` | the repository's own 149 integration tests and 18 unit tests as checks of the model; tests, not proofs |
| `Prop*` | the theorems `Cnn_…`, each followed by `Print Assumptions` and a case `Cnn_…_case` meeting its hypotheses |

## 4. Findings

Behaviour of the code that contradicts a natural expectation. Each is a theorem about a reachable state.

| property | finding |
|---|---|
| C03 | a validator's effective amount can lag behind its cap: `InitializeSolStakerStake` raises the total without re-syncing |
| C09 | staked tokens leave the vault for the rewards pool, so a slash fails unless the vault is funded separately; the repository's slash tests mint into the vault, which hides it |
| C19 | rewards owed can exceed the lamports available by rounding of the rewards program |
| C25 | for a stake delegated to a validator without stake account a keeper can be paid again and again although nothing changes |
| C37 | with the config as keeper and as previous validator authority, a harvest credits rewards to stake that did not exist when they arrived |
| C38 | topping up from the authority's own wallet fails whenever rewards are pending |
| C39 | newly staked tokens can get a claim on holder rewards paid by their own deposit |
| C48 | two reward recipients are declared read-only (`ValidatorStakeTokens` index 4, `SolStakerMoveTokens` index 2) |
| C53 | `UnstakeTokens` and the other settling instructions can abort on `assert!(config_lamports >= rent_exempt_minimum)` after settlements that round down; lamports given to the config do not cure it for a sole staker. `ValidatorSyncAuthority` aborts on an uninitialised stake |
| C58 | the JavaScript client's `findVaultPda` hashes `token-vault` and the config's authority where the program hashes `token-owner` and the config: its result is never a vault authority |
| C60 | the clients' account readers do not look at the discriminator: a SOL staker stake reads as a validator stake (C67: in JavaScript too) |
| C65 | the JavaScript builder of `InitializeConfig` silently cuts or pads a document hash that is not 32 bytes long |
| C66 | the JavaScript instruction parsers neither compare the discriminator nor refuse trailing bytes |
| C68 | the JavaScript `getNullableU64Codec` cannot be built: its decoder declares 32 bytes, its encoder 8 |
| C72 | with a deactivation cap below 100 percent a staker can never unstake the last tokens (fewer than 10000 / cap in basis points) |
| C76 | `InitializeConfig` accepts a vault authority without lamports; its assignment to the program is then lost at the end of the transaction, for ever, and holder rewards paid to it are locked |
| C77 | an authorised slash or override is refused by the runtime as long as the staker's wallet does not exist and the pending reward is below the rent minimum |
| C78 | `idl.json` uses `PodU128` and `OptionalNonZeroPubkey` without defining them: no account can be read from it alone |
| C80 | the Rust client's CPI builders swap the flags of remaining accounts: added as writable, an account is asked to sign |
| C86 | the README and comments describe limits on staked tokens, a cooldown before withdrawal, a permissionless unstake and validators tracking their stakers' tokens; none of this is what the program does |
| C88 | a staker account's authority is fixed by whoever was withdrawer at creation: after the native stake changes hands its rewards still go to the first one. One token sent to a prepared vault before `InitializeConfig` makes the account unusable as a vault for ever |
| C94 | a slash burns tokens but leaves them in the vault's deposit with the rewards pool, so the pool goes on paying holder rewards for them; no stake account can ever claim these lamports |

## 5. Trusted base

* Coq 8.16.1: the kernel, including its virtual machine (`vm_compute` evaluates concrete cases).
* The standard library and std++ (`gmap`), as definitions and proved lemmas.
* `Print Assumptions` reports **Closed under the global context** for every theorem below: no axiom is
  used. Loading the libraries brings seven axioms into scope (`Coq.ssr.ssrunder.Under_rel.*`), no theorem depends on them.
* No axiom, `Admitted`, functor, module type or kernel flag is used in this development.
* That the model says what the Rust code says. It was written by reading; each definition cites file
  and lines. The code cannot be built here, so the model was not run against it. Instead every test of the
  repository was carried over to the model with its expected result (`Conform*`): 149 integration tests
  (`clients/rust/tests`) and 18 unit tests. The model agrees with all of them. Two differences of vocabulary: where a
  called program fails, the tests name its error (`BorshIoError` of the view program, error 1 of the
  token program) and the model has one error per called program (`ViewError`, `TokenError`).
* The assumptions of `env_ok`, `wf_ctx`, `genesis` and `rely` described above.

## 6. Wrong programs

`seeded/LOG.jsonl` records mutations of the model and what they broke. A mutant changes a definition of the
model and, where the change goes through the relation describing the handler, the relation too, so
that a failing theorem is about the changed behaviour and not about a proof script. Each mutant is rebuilt
from scratch in a copy; failing lemmas are admitted one by one and `Print Assumptions` tells which
property theorems depend on them.

## 7. Theorems

| property | title | status | file | theorems |
|---|---|---|---|---|
| C01 | Config effective total equals the sum over its stake accounts | proved | `PropState.v` | `C01_effective_total` |
| C02 | SOL staker effective stake is exactly the capped stake | proved | `PropState.v` | `C02_staker_effective` |
| C03 | Validator effective stake never exceeds its cap, and is exact after every instruction that re-syncs it | proved | `PropState.v` | `C03_validator_effective`, `C03_exact_after_change`, `C03_always_exact_refuted` |
| C04 | Validator total lamports equals the sum of its stakers | proved | `PropState.v` | `C04_validator_total`, `C04_undelegated` |
| C05 | Staked tokens are fully backed | proved | `PropState.v` | `C05_staked_plus_slashed`, `C05_backed` |
| C06 | Unstake pays out exactly the amount removed | proved | `PropTokens.v` | `C06_unstake_exact` |
| C07 | Staking credits exactly the tokens taken | proved | `PropTokens.v` | `C07_stake_exact` |
| C08 | Slash removes and burns exactly min(amount, staked) | proved | `PropTokens.v` | `C08_slash_exact` |
| C09 | A slash succeeds exactly when the vault was funded separately | proved | `PropLive.v` | `C09_funded_slash_succeeds`, `C09_slash_needs_funded_vault`, `C09_slash_refuted` |
| C10 | Unstake respects basis-point cap and cooldown | proved | `PropTokens.v` | `C10_unstake_limits` |
| C11 | Unstake rate limit holds over a whole cooldown window, even with moves | proved | `PropWindow.v` | `C11_window_limit` |
| C12 | Only the stake authority or the slash authority can reduce a stake | proved | `PropAuth.v` | `C12_stake_reduction`, `C12_stake_stays` |
| C13 | Nobody's tokens are taken without their signature | proved | `PropTokens.v` | `C13_token_authorisation`, `C13_owner_signed`, `C13_supply` |
| C14 | Config parameters and authorities change only by their authority; a removed authority is gone for good | proved | `PropAuth.v` | `C14_config_changes`, `C14_minimum_changes`, `C14_unset_forever` |
| C15 | Identity fields are immutable and accounts are never re-initialised | proved | `PropState.v` | `C15_config_identity`, `C15_validator_identity`, `C15_staker_identity`, `C15_no_reinitialisation` |
| C16 | Deactivation cap is always at most 100% | proved | `PropState.v` | `C16_bps`, `C16_limit_computable` |
| C17 | The config account always holds at least the lamports it last recorded | proved | `PropState.v` | `C17_lamports_recorded`, `C17_sync_never_fails` |
| C18 | Reward solvency | proved | `PropSolvency.v` | `C18_solvency`, `C18_one_lamport_per_settlement`, `C18_new_claims_covered` |
| C19 | Solvency without a rounding allowance is false | proved | `PropSolvency.v` | `C19_exact_solvency_refuted` |
| C20 | Harvesting twice pays once | proved | `PropReward.v` | `C20_validator_harvest_twice`, `C20_staker_harvest_twice` |
| C21 | Harvesting one account does not touch another | proved | `PropReward.v` | `C21_validator_harvest_leaves_others`, `C21_staker_harvest_leaves_others`, `C21_staking_claims_kept` |
| C22 | No retroactive rewards | proved | `PropReward.v` | `C22_no_claim_after_staking`, `C22_no_claim_after_move` |
| C23 | Arriving lamports are shared in proportion to effective stake | proved | `PropArith.v` | `C23_share`, `C23_shares_covered` |
| C24 | Harvest pays out exactly and splits with the keeper exactly | proved | `PropReward.v`, `PropSolvency.v` | `C24_validator_harvest_pays`, `C24_staker_harvest_pays`, `C24_sync_harvest_pays`, `C24_staking_pays`, `C24_unstaking_pays`, `C24_slashing_pays`, `C24_override_pays`, `C24_move_pays` |
| C25 | Keeper is paid for nothing only for stakes of non-participating validators | proved | `PropLive.v` | `C25_no_change_no_keeper`, `C25_participating_validator`, `C25_keeper_refuted` |
| C26 | Holder rewards are not counted as staking rewards | proved | `PropReward.v` | `C26_holder_harvest` |
| C27 | Instruction encoding is unambiguous | proved | `PropCodec.v` | `C27_round_trip`, `C27_injective`, `C27_accepts_exactly`, `C27_rejects_cleanly`, `C27_never_panics`, `C27_packed_documented`, `C27_unambiguous` |
| C28 | Account encoding is unambiguous | proved | `PropCodec.v` | `C28_config_round_trip`, `C28_validator_round_trip`, `C28_staker_round_trip`, `C28_accepts_exactly`, `C28_handlers_read_bytes`, `C28_one_type`, `C28_discriminators`, `C28_zeroed_refused`, `C28_injective` |
| C29 | Reward and limit arithmetic is exact or fails cleanly | proved | `PropArith.v` | `C29_rewards_exact`, `C29_rate_exact`, `C29_limit_exact`, `C29_limit_monotone`, `C29_deactivation_exact` |
| C30 | No stake account without the signed DUNA document | proved | `PropAuth.v` | `C30_duna_signed` |
| C31 | SOL staker authority is the native stake's withdrawer | proved | `PropState.v` | `C31_staker_authority` |
| C32 | Validator authority always comes from the vote account | proved | `PropAuth.v` | `C32_validator_created`, `C32_authority_changes`, `C32_sync_changes_nothing_else` |
| C33 | A stake authority can always get tokens out | proved | `PropLive.v` | `C33_unstake_succeeds` |
| C34 | Configs are isolated | proved | `PropAuth.v` | `C34_configs_isolated` |
| C35 | Harvests never take the config below rent | proved | `PropState.v` | `C35_rent_exempt` |
| C36 | Internal consistency checks never fire | proved | `PropLive.v` | `C36_effective_in_range`, `C36_totals_in_range`, `C36_sync_harvest_succeeds` |
| C37 | Solvency holds for every stake authority but not for every keeper | proved | `PropSolvency.v` | `C37_any_keeper_refuted`, `C37_any_authority` |
| C38 | Topping up from the own wallet works only when no reward is pending | proved | `PropLive.v` | `C38_top_up_succeeds`, `C38_own_wallet_needs_nothing_pending`, `C38_top_up_refuted` |
| C39 | Holder claim right after staking is exactly the advance made by the deposit | proved | `PropReward.v` | `C39_holder_claim_after_staking`, `C39_no_retroactive_holder_claim_refuted` |
| C40 | Permissionless instructions are harmless | proved | `PropAuth.v` | `C40_permissionless_harmless` |
| C41 | Moves conserve stake and keep the stricter cooldown | proved | `PropAuth.v` | `C41_move_exact` |
| C42 | Harvesting often never pays more | proved | `PropArith.v` | `C42_split_harvest` |
| C43 | Accumulator wrap-around does not lose or create rewards | proved | `PropArith.v` | `C43_wrap_exact` |
| C44 | Lamports arriving with no effective stake are never distributed | proved | `PropReward.v` | `C44_idle_lamports_distributed_to_nobody`, `C44_idle_claims_zero`, `C44_seen` |
| C45 | One stake account per validator or native stake and config | proved | `PropState.v` | `C45_validator_home`, `C45_staker_home`, `C45_one_validator_stake`, `C45_one_staker_stake` |
| C46 | A stake account never loses lamports | proved | `PropState.v` | `C46_stake_lamports` |
| C47 | Tokens can always be moved between own stakes | proved | `PropLive.v` | `C47_move_succeeds` |
| C48 | Only accounts declared writable change, except two reward recipients | proved | `PropDeclared.v` | `C48_only_declared_change`, `C48_declared_suffice`, `C48_validator_stake_refuted`, `C48_move_refuted` |
| C49 | Signatures are asked for exactly where declared | proved | `PropDeclared.v` | `C49_declared_signers_sign`, `C49_other_signatures_irrelevant` |
| C50 | The entry point does what the histories assume | proved | `PropDeclared.v` | `C50_entry_is_step`, `C50_entry_complete`, `C50_account_count` |
| C51 | Governance and initialisation succeed exactly when their conditions hold | proved | `PropExact.v` | `C51_update_config`, `C51_set_authority`, `C51_sync_authority`, `C51_init_config`, `C51_init_validator_stake`, `C51_init_sol_staker_stake` |
| C52 | Validator harvests, overrides and holder harvests go through | proved | `PropExact.v` | `C52_harvest_validator_succeeds`, `C52_override_succeeds`, `C52_harvest_holder_succeeds` |
| C53 | Aborts happen in two situations only | proved | `PropPanic.v` | `C53_panics_only`, `C53_entry_point`, `C53_unstake_aborts_refuted`, `C53_success_affordable`, `C53_gifts_do_not_help_refuted`, `C53_sync_authority_aborts_refuted` |
| C54 | Only the right accounts are accepted | proved | `PropNeeds.v` | `C54_accounts_authentic` |
| C55 | Exact success conditions of the settling instructions | proved | `PropNeeds.v` | `C55_harvest_validator`, `C55_override`, `C55_move`, `C55_harvest_holder` |
| C56 | Derived addresses never coincide | proved | `PropPda.v` | `C56_addresses_distinct`, `C56_documents_distinct` |
| C57 | Signer seeds recreate the found address | proved | `PropPda.v` | `C57_found_is_canonical`, `C57_signer_seeds`, `C57_vault_created` |
| C58 | Clients derive the program's addresses | proved | `PropPda.v` | `C58_rust_addresses`, `C58_js_vault_refuted` |
| C59 | The client builds what the program runs | proved | `PropClient.v` | `C59_client_calls`, `C59_client_privileges` |
| C60 | Account readers return the stored fields | proved | `PropClient.v` | `C60_config_reader`, `C60_validator_reader`, `C60_staker_reader`, `C60_reader_checks_kind_refuted`, `C60_nullable` |
| C61 | Clients name the program's errors | proved | `PropClient.v` | `C61_error_codes` |
| C62 | Delegation of either kind of stake account | proved | `PropPda.v` | `C62_delegation_checked`, `C62_delegation_panics` |
| C63 | Exact success conditions of the token instructions | proved | `PropCan.v` | `C63_only_if`, `C63_exact`, `C63_failure_has_reason` |
| C64 | Exact success conditions of the SOL-staker harvest | proved | `PropSync.v` | `C64_only_if`, `C64_exact`, `C64_unchanged` |
| C65 | The JavaScript client builds what the program runs | proved | `PropJs.v` | `C65_js_builds`, `C65_js_calls`, `C65_js_privileges`, `C65_js_hash` |
| C66 | Parsing instructions in JavaScript | proved | `PropJs.v` | `C66_identify`, `C66_parse_agrees`, `C66_parse_only`, `C66_round_trip`, `C66_parser_checks_kind_refuted` |
| C67 | JavaScript account codecs | proved | `PropJs.v` | `C67_js_config_reader`, `C67_js_config_faithful`, `C67_js_stake_readers`, `C67_js_reader_checks_kind_refuted` |
| C68 | Nullable values in both clients | proved | `PropJs.v` | `C68_nullable`, `C68_codecs_combine_refuted` |
| C69 | JavaScript error names and messages | proved | `PropJs.v` | `C69_js_errors` |
| C70 | An instruction sees and changes only the accounts passed to it | proved | `PropLocal.v` | `C70_local`, `C70_frame` |
| C71 | Independent instructions commute | proved | `PropLocal.v` | `C71_commute`, `C71_any_order` |
| C72 | Leaving by unstaking | proved | `PropExit.v` | `C72_down_to_dust`, `C72_full_exit`, `C72_dust_stuck`, `C72_never_empty` |
| C73 | Errors tell the truth | proved | `PropError.v` | `C73_errors_true` |
| C74 | Fair share over a whole history | proved | `PropShare.v` | `C74_at_most_fair`, `C74_at_least_fair`, `C74_lifetime` |
| C75 | Transactions are histories | proved | `PropTx.v` | `C75_chain`, `C75_transactions`, `C75_transaction`, `C75_survive` |
| C76 | A vault authority stays with the program | proved | `PropTx.v` | `C76_unfunded`, `C76_for_ever`, `C76_nothing_collected`, `C76_harvest_blocked`, `C76_funded`, `C76_vault_authority_refuted` |
| C77 | What the rent check refuses | proved | `PropTx.v` | `C77_refused_when`, `C77_accepted`, `C77_short_accounts`, `C77_no_penalty`, `C77_slash_refused_refuted` |
| C78 | The interface description agrees with the program | proved | `PropIdl.v` | `C78_instruction_data`, `C78_instruction_accounts`, `C78_instructions_run`, `C78_privileges`, `C78_nothing_else`, `C78_config_data`, `C78_validator_data`, `C78_staker_data`, `C78_self_contained_refuted`, `C78_errors` |
| C79 | Holder rewards over a whole history | proved | `PropHolder.v` | `C79_at_most`, `C79_at_least`, `C79_lifetime` |
| C80 | The Rust client's builders | proved | `PropBuild.v` | `C80_builder`, `C80_builder_runs`, `C80_missing`, `C80_cpi`, `C80_remaining_refuted`, `C80_cpi_runs`, `C80_cpi_missing` |
| C81 | The program keeps the staking book | proved | `PropBook.v` | `C81_step`, `C81_refused`, `C81_history`, `C81_kept`, `C81_alone` |
| C82 | The order of harvests does not matter | proved | `PropOrder.v` | `C82_swap`, `C82_any_order`, `C82_all_or_none` |
| C83 | Overflow errors tell the truth | proved | `PropOver.v` | `C83_overflow_reasons`, `C83_overflow_in_practice` |
| C84 | A run on the config | proved | `PropRun.v` | `C84_queue_goes_through`, `C84_everybody_is_paid`, `C84_run_on_the_config` |
| C85 | Splitting a position gains nothing | proved | `PropSplit.v` | `C85_effective`, `C85_rewards`, `C85_split_costs_dust` |
| C86 | What the documentation promises | proved | `PropDocs.v` | `C86_limits_refuted`, `C86_validators_do_not_track_tokens`, `C86_unstake_is_not_permissionless`, `C86_cooldown_refuted`, `C86_anybody_creates`, `C86_config_authority_is_limited` |
| C87 | Every changed byte belongs to a field the instruction is there to write | proved | `PropBytes.v` | `C87_no_padding`, `C87_layout`, `C87_bytes`, `C87_shape`, `C87_fixed_bytes`, `C87_in_place`, `C87_nothing_superfluous` |
| C88 | Nobody can squat on a stake address or get hold of a vault | proved | `PropSquat.v` | `C88_validator_address`, `C88_staker_address`, `C88_override_address`, `C88_waiting`, `C88_custody`, `C88_vault_in_custody`, `C88_locked`, `C88_validator_creatable`, `C88_staker_creatable`, `C88_first_keeps`, `C88_authority_follows_refuted` |
| C89 | Every error from outside the program's own checks has the cause it names | proved | `PropCause.v` | `C89_errors_cause` |
| C90 | Calls to other programs stay within the declared privileges | proved | `PropCpi.v` | `C90_callees_change_marked`, `C90_callees_see_named`, `C90_calls_permitted`, `C90_declared_executes` |
| C91 | The staking rewards of a config all reach its stake accounts, but for rounding | proved | `PropDust.v` | `C91_no_more`, `C91_no_less`, `C91_lifetime`, `C91_every_history` |
| C92 | A run on the tokens | proved | `PropBank.v` | `C92_run_on_the_tokens`, `C92_all_out`, `C92_after_any_history` |
| C93 | Tokens are conserved, and a delegate never takes more than it was allowed | proved | `PropSupply.v` | `C93_tokens_conserved`, `C93_delegate_draws`, `C93_within_allowance` |
| C94 | Where the holder rewards of a config go | proved | `PropStray.v` | `C94_no_more`, `C94_no_less`, `C94_every_history`, `C94_lifetime`, `C94_all_of_it`, `C94_reach_the_stakers_refuted` |
| C95 | The lamports of a config and its vault are accounted for, to the lamport | proved | `PropSheet.v` | `C95_exact`, `C95_enough`, `C95_nothing_else`, `C95_every_history` |
| C96 | When everybody can be paid, in terms of what was sent astray | proved | `PropCushion.v` | `C96_everybody_can_be_paid`, `C96_somebody_goes_unpaid` |
