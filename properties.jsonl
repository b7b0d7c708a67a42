{"id": "C01", "title": "Config effective total equals the sum over its stake accounts", "statement": "At every moment the config's token_amount_effective equals the sum of effective_amount over all stake accounts (validator and SOL staker) derived from that config.", "quantifier": "every finite history of successful instructions (any accounts, signers, amounts, oracle answers) interleaved with any outside activity the Solana rules allow, starting before any config exists", "why_tests_cant": "The total is maintained by increments scattered over ten instructions; a test sees a handful of accounts and one order, while a single missed or doubled adjustment on any path silently dilutes or inflates every reward.", "anchors": ["program/src/processor/mod.rs:sync_effective", "program/src/processor/harvest_sol_staker_rewards.rs", "program/src/processor/sol_staker_move_tokens.rs", "program/src/processor/unstake_tokens.rs", "program/src/state/config.rs:token_amount_effective"]}
{"id": "C02", "title": "SOL staker effective stake is exactly the capped stake", "statement": "For every SOL staker stake account at every moment effective_amount = min(staked_amount, floor(13*lamports_amount/10)).", "quantifier": "every finite history of successful instructions (any accounts, signers, amounts, oracle answers) interleaved with any outside activity the Solana rules allow, starting before any config exists", "why_tests_cant": "Must survive arbitrary interleavings of stake, unstake, slash, move and sync with arbitrary native-stake changes.", "anchors": ["program/src/processor/mod.rs:sync_effective", "program/src/state/mod.rs:calculate_maximum_stake_for_lamports_amount", "program/src/processor/harvest_sol_staker_rewards.rs"]}
{"id": "C03", "title": "Validator effective stake never exceeds its cap, and is exact after every instruction that re-syncs it", "statement": "At every moment a validator stake account's effective_amount <= min(staked_amount, floor(13*max(total_staked_lamports_amount, total_staked_lamports_amount_min)/10)). (Always being equal to it is false: InitializeSolStakerStake raises the total without re-syncing.)", "quantifier": "every finite history of successful instructions (any accounts, signers, amounts, oracle answers) interleaved with any outside activity the Solana rules allow, starting before any config exists", "why_tests_cant": "Over- or under-crediting depends on the order in which stakers are created and validators are touched.", "anchors": ["program/src/processor/mod.rs:sync_effective", "program/src/processor/initialize_sol_staker_stake.rs", "program/src/processor/validator_override_staked_lamports.rs"]}
{"id": "C04", "title": "Validator total lamports equals the sum of its stakers", "statement": "At every moment, for every validator stake account, total_staked_lamports_amount equals the sum of lamports_amount over the SOL staker stake accounts of the same config whose recorded validator vote is that validator; a staker with no recorded validator has lamports_amount 0.", "quantifier": "every finite history of successful instructions (any accounts, signers, amounts, oracle answers) interleaved with any outside activity the Solana rules allow, starting before any config exists", "why_tests_cant": "Re-delegation moves weight between two accounts using remembered amounts; drift only shows after long histories.", "anchors": ["program/src/processor/initialize_sol_staker_stake.rs", "program/src/processor/harvest_sol_staker_rewards.rs"]}
{"id": "C05", "title": "Staked tokens are fully backed", "statement": "At every moment the sum of staked_amount over a config's stake accounts plus everything ever slashed from them equals the amount the vault authority has deposited in the holder-rewards pool; in particular the sum of staked_amount never exceeds that deposit.", "quantifier": "every finite history of successful instructions (any accounts, signers, amounts, oracle answers) interleaved with any outside activity the Solana rules allow, starting before any config exists", "why_tests_cant": "Conservation over all histories including moves, slashes and third-party token transfers.", "anchors": ["program/src/processor/validator_stake_tokens.rs", "program/src/processor/sol_staker_stake_tokens.rs", "program/src/processor/unstake_tokens.rs", "program/src/processor/mod.rs:process_slash_for_delegation"]}
{"id": "C06", "title": "Unstake pays out exactly the amount removed", "statement": "A successful UnstakeTokens(amount) raises the destination token account by exactly amount, lowers the stake account's staked_amount and the vault authority's pool deposit by exactly amount, leaves the vault balance and every other stake account's staked_amount unchanged, and re-caps the effective amount.", "quantifier": "every reachable state, account list, signer set, clock value and amount for which the instruction succeeds", "why_tests_cant": "Quantifies over aliasing of accounts (destination equal to pool account, authority equal to config, ...) that tests never try.", "anchors": ["program/src/processor/unstake_tokens.rs"]}
{"id": "C07", "title": "Staking credits exactly the tokens taken", "statement": "A successful ValidatorStakeTokens/SolStakerStakeTokens(amount) takes exactly amount > 0 tokens from the source account, raises staked_amount of the target by exactly amount and the pool deposit by exactly amount, and leaves the vault token balance unchanged.", "quantifier": "every state, account list, signer set and amount for which the instruction succeeds", "why_tests_cant": "All aliasings and balances, including source = vault.", "anchors": ["program/src/processor/validator_stake_tokens.rs", "program/src/processor/sol_staker_stake_tokens.rs"]}
{"id": "C08", "title": "Slash removes and burns exactly min(amount, staked)", "statement": "A successful SlashValidatorStake/SlashSolStakerStake(amount) lowers staked_amount by exactly min(amount, staked_amount), burns exactly that many tokens from the vault (mint supply drops by the same), re-caps the effective amount and touches no other stake account.", "quantifier": "every state and input for which the instruction succeeds", "why_tests_cant": "Saturation, zero stake and rounding corner cases over the whole u64 range.", "anchors": ["program/src/processor/mod.rs:process_slash_for_delegation", "program/src/processor/slash_validator_stake.rs", "program/src/processor/slash_sol_staker_stake.rs"]}
{"id": "C09", "title": "A slash succeeds exactly when the vault was funded separately", "statement": "A well-formed slash of a stake account succeeds exactly when the vault token account holds at least min(amount, staked_amount) tokens. Being able to slash whatever is staked is false: staked tokens are forwarded to the holder-rewards pool, so there is a reachable state in which a well-formed slash of staked tokens fails because the vault is empty.", "quantifier": "every reachable state; for the success direction a correct account list, signer and payable pending rewards", "why_tests_cant": "The repository's tests mint tokens directly into the vault before slashing, a state the program itself never produces.", "anchors": ["program/src/processor/mod.rs:process_slash_for_delegation", "program/src/processor/validator_stake_tokens.rs", "clients/rust/tests/slash_validator_stake.rs"]}
{"id": "C10", "title": "Unstake respects basis-point cap and cooldown", "statement": "A successful UnstakeTokens(amount) implies current time >= the account's unstake_cooldown, amount <= floor(staked_amount*max_deactivation_basis_points/10000), and sets the new cooldown to min(now + cooldown_time_seconds, u64::MAX).", "quantifier": "every state, clock and amount", "why_tests_cant": "Full u64 ranges including saturation.", "anchors": ["program/src/processor/unstake_tokens.rs"]}
{"id": "C11", "title": "Unstake rate limit holds over a whole cooldown window, even with moves", "statement": "In any history confined to a time window shorter than the cooldown, during which the basis-point cap is at most b and the cooldown at least D, the total amount unstaked from all stake accounts of a config is at most b/10000 of (the amount staked at the beginning of the window plus everything staked during it), no matter how tokens are moved between stake accounts. The end of the window lies below 2^64 seconds, where the program's addition saturates.", "quantifier": "every history inside a window, any number of accounts, moves and unstakes", "why_tests_cant": "The guarantee is about all schedules of moves and unstakes over many accounts (cooldown-reset attacks).", "anchors": ["program/src/processor/unstake_tokens.rs", "program/src/processor/sol_staker_move_tokens.rs"]}
{"id": "C12", "title": "Only the stake authority or the slash authority can reduce a stake", "statement": "If an instruction lowers the staked_amount of a stake account then it is an UnstakeTokens or SolStakerMoveTokens signed by that account's recorded authority, or a slash signed by the config's slash authority.", "quantifier": "every state and every instruction with any accounts", "why_tests_cant": "All instructions, all account substitutions.", "anchors": ["program/src/processor/unstake_tokens.rs", "program/src/processor/sol_staker_move_tokens.rs", "program/src/processor/slash_validator_stake.rs", "program/src/processor/slash_sol_staker_stake.rs"]}
{"id": "C13", "title": "Nobody's tokens are taken without their signature", "statement": "If an instruction lowers the balance of a token account that is not owned by a vault authority and is not the rewards pool's, then the token account's owner or delegate signed the transaction.", "quantifier": "every reachable state and every instruction with any accounts", "why_tests_cant": "All account substitutions in all instructions.", "anchors": ["program/src/processor/validator_stake_tokens.rs", "program/src/processor/sol_staker_stake_tokens.rs", "program/src/processor/unstake_tokens.rs"]}
{"id": "C14", "title": "Config parameters and authorities change only by their authority; a removed authority is gone for good", "statement": "The config authority, cooldown, basis points, sync reward and validator minimum change only in an instruction signed by the current config authority; the slash authority changes only when signed by the current slash authority; once an authority is unset it stays unset in every later state.", "quantifier": "every instruction / every finite history of successful instructions (any accounts, signers, amounts, oracle answers) interleaved with any outside activity the Solana rules allow, starting before any config exists", "why_tests_cant": "Permanence over all futures and absence of any other path.", "anchors": ["program/src/processor/set_authority.rs", "program/src/processor/update_config.rs", "program/src/processor/validator_override_staked_lamports.rs"]}
{"id": "C15", "title": "Identity fields are immutable and accounts are never re-initialised", "statement": "Once created, a config keeps its vault, vault bump and document hash; a validator stake keeps its vote account; a SOL staker stake keeps its native stake address and authority; the kind of account never changes and no account is ever initialised twice or closed.", "quantifier": "every finite history of successful instructions (any accounts, signers, amounts, oracle answers) interleaved with any outside activity the Solana rules allow, starting before any config exists", "why_tests_cant": "A statement over all futures.", "anchors": ["program/src/processor/initialize_config.rs", "program/src/processor/initialize_validator_stake.rs", "program/src/processor/initialize_sol_staker_stake.rs"]}
{"id": "C16", "title": "Deactivation cap is always at most 100%", "statement": "In every state max_deactivation_basis_points <= 10000, so the maximum unstakable amount never exceeds the stake and its computation never overflows.", "quantifier": "every finite history of successful instructions (any accounts, signers, amounts, oracle answers) interleaved with any outside activity the Solana rules allow, starting before any config exists", "why_tests_cant": "Every path that writes the field.", "anchors": ["program/src/processor/initialize_config.rs", "program/src/processor/update_config.rs", "program/src/processor/unstake_tokens.rs"]}
{"id": "C17", "title": "The config account always holds at least the lamports it last recorded", "statement": "At every moment the lamports of the config account are >= lamports_last, so reward synchronisation never fails with an arithmetic error.", "quantifier": "every finite history of successful instructions (any accounts, signers, amounts, oracle answers) interleaved with any outside activity the Solana rules allow, starting before any config exists", "why_tests_cant": "Every path that moves lamports, including aliased accounts (authority or keeper equal to the config).", "anchors": ["program/src/processor/mod.rs:sync_config_lamports", "program/src/processor/mod.rs:harvest", "program/src/processor/harvest_holder_rewards.rs"]}
{"id": "C18", "title": "Reward solvency", "statement": "At every moment the rewards owed to all stake accounts of a config together (staking rewards on effective amounts plus holder rewards on staked amounts), plus the lamports the config and its vault authority held when the config was created, are covered by the lamports they hold now, up to the rounding of the rewards program: less than one lamport for each time the vault authority was paid by the pool (deposit, withdrawal or harvest) plus, for a deposit that also advances the accumulator, the advance times the deposited amount (see C39).", "quantifier": "every history after the creation of a config, with outside activity, in which no synchronising harvest names the config itself as keeper (see C37) and the vault authority's and config's lamports are not taken by others", "why_tests_cant": "Needs the sum over all accounts and all histories, with wrapping 128-bit accumulators and rounding.", "anchors": ["program/src/processor/mod.rs:harvest", "program/src/processor/mod.rs:sync_config_lamports", "program/src/state/mod.rs:calculate_eligible_rewards", "program/src/state/mod.rs:calculate_stake_rewards_per_token"]}
{"id": "C19", "title": "Solvency without a rounding allowance is false", "statement": "Owed rewards can exceed the lamports available even when tokens are only staked while the vault is settled: HarvestHolderRewards receives floored payments while stakers accumulate unfloored rates. So C18 without a rounding allowance is false; a reachable history is exhibited.", "quantifier": "a concrete reachable history", "why_tests_cant": "Rounding drift shows only over repeated calls.", "anchors": ["program/src/processor/harvest_holder_rewards.rs", "program/src/processor/mod.rs:harvest"]}
{"id": "C20", "title": "Harvesting twice pays once", "statement": "Harvesting the same stake account again with no lamports arrived in between succeeds, pays nothing and leaves every account unchanged (for a SOL staker: when the view program still reports what was recorded).", "quantifier": "every reachable state in which the first harvest succeeds with a keeper different from the config account", "why_tests_cant": "All amounts and accumulators, including wrap-around.", "anchors": ["program/src/processor/mod.rs:harvest", "program/src/processor/harvest_validator_rewards.rs"]}
{"id": "C21", "title": "Harvesting one account does not touch another", "statement": "A harvest of one stake account changes no other stake account, and the reward any other account would receive is the same whether it harvests before or after. A synchronising SOL staker harvest also settles the validators left and joined, and nothing else.", "quantifier": "every reachable state, every other stake account; the keeper is not the config account", "why_tests_cant": "Order independence for all pairs and amounts.", "anchors": ["program/src/processor/mod.rs:harvest"]}
{"id": "C22", "title": "No retroactive rewards", "statement": "Right after a stake account's staked amount is increased (stake or move) its claim on staking rewards is zero: newly staked tokens earn nothing for lamports that arrived before.", "quantifier": "every state and input", "why_tests_cant": "All accumulators and amounts.", "anchors": ["program/src/processor/validator_stake_tokens.rs", "program/src/processor/sol_staker_stake_tokens.rs", "program/src/processor/sol_staker_move_tokens.rs"]}
{"id": "C23", "title": "Arriving lamports are shared in proportion to effective stake", "statement": "When d lamports arrive while the total effective stake is T > 0, an account with effective amount e becomes entitled to at most d*e/T lamports and to more than d*e/T - e/10^18 - 1; all entitlements together never exceed d.", "quantifier": "every d, T, e and accumulator value (including wrap-around)", "why_tests_cant": "Rounding bounds for all values.", "anchors": ["program/src/state/mod.rs:calculate_eligible_rewards", "program/src/state/mod.rs:calculate_stake_rewards_per_token", "program/src/processor/mod.rs:sync_config_lamports"]}
{"id": "C24", "title": "Harvest pays out exactly and splits with the keeper exactly", "statement": "A harvest lowers the config's lamports by exactly the reward; the keeper (only when a sync was needed) receives min(reward, sync_rewards_lamports) and the stake authority receives the rest; nobody else's lamports change.", "quantifier": "every reachable state and input; the synchronising harvest with a keeper different from the config account", "why_tests_cant": "Aliasing of authority, keeper and config.", "anchors": ["program/src/processor/mod.rs:harvest", "program/src/processor/harvest_sol_staker_rewards.rs"]}
{"id": "C25", "title": "Keeper is paid for nothing only for stakes of non-participating validators", "statement": "HarvestSolStakerRewards pays a keeper nothing when the view program reports what is recorded, and afterwards records what was reported whenever the reported validator has a stake account or there is none; so a keeper is then paid at most once per change. For a stake delegated to a validator without a stake account this fails: a keeper can be paid although nothing changes, as a reachable history shows.", "quantifier": "every reachable state and view answer", "why_tests_cant": "The situation needs a specific sequence (re-delegation to a non-participating validator) and repetition.", "anchors": ["program/src/processor/harvest_sol_staker_rewards.rs"]}
{"id": "C26", "title": "Holder rewards are not counted as staking rewards", "statement": "HarvestHolderRewards moves the vault authority's lamports above the rent minimum to the config, records the config's full balance as seen, and raises the staking accumulator only by lamports that had arrived at the config before the call.", "quantifier": "every state and every amount paid by the rewards program", "why_tests_cant": "Any interleaving with direct lamport transfers.", "anchors": ["program/src/processor/harvest_holder_rewards.rs", "program/src/processor/mod.rs:transfer_excess_lamports"]}
{"id": "C27", "title": "Instruction encoding is unambiguous", "statement": "Unpacking a packed instruction gives it back; two different instructions never pack to the same bytes; unpacking accepts exactly the documented byte strings, never panics, and rejects everything else with InvalidInstructionData.", "quantifier": "every instruction value and every byte string", "why_tests_cant": "Infinite input space.", "anchors": ["program/src/instruction.rs:pack", "program/src/instruction.rs:unpack"]}
{"id": "C28", "title": "Account encoding is unambiguous", "statement": "Each of the three account types round-trips through its byte layout, has its fixed size, and no byte string is accepted as two different account types; a zeroed account is never accepted as initialised.", "quantifier": "every field value and every byte string", "why_tests_cant": "Infinite input space.", "anchors": ["program/src/state/config.rs", "program/src/state/sol_staker_stake.rs", "program/src/state/validator_stake.rs", "program/src/processor/mod.rs:unpack_initialized"]}
{"id": "C29", "title": "Reward and limit arithmetic is exact or fails cleanly", "statement": "The three calculation functions return exactly the mathematical floor value when it fits and ArithmeticOverflow otherwise, never a wrapped or truncated value; the limit is monotone.", "quantifier": "all u64/u128 inputs", "why_tests_cant": "2^256 inputs.", "anchors": ["program/src/state/mod.rs:calculate_eligible_rewards", "program/src/state/mod.rs:calculate_stake_rewards_per_token", "program/src/state/mod.rs:calculate_maximum_stake_for_lamports_amount"]}
{"id": "C30", "title": "No stake account without the signed DUNA document", "statement": "A stake account is created only if the document account of its authority source (vote withdrawer or native stake withdrawer) for the config's document hash exists and starts with byte 1.", "quantifier": "every state and input", "why_tests_cant": "All account substitutions.", "anchors": ["program/src/processor/mod.rs:check_duna_document_signed", "program/src/processor/initialize_validator_stake.rs", "program/src/processor/initialize_sol_staker_stake.rs"]}
{"id": "C31", "title": "SOL staker authority is the native stake's withdrawer", "statement": "The authority recorded for a new SOL staker stake account is the withdrawer reported by the stake view program, in every reachable state (the override account can never contain data), and it never changes afterwards.", "quantifier": "every finite history of successful instructions (any accounts, signers, amounts, oracle answers) interleaved with any outside activity the Solana rules allow, starting before any config exists", "why_tests_cant": "Needs that no history creates the override account.", "anchors": ["program/src/processor/initialize_sol_staker_stake.rs", "program/src/state/mod.rs:find_sol_staker_authority_override_pda"]}
{"id": "C32", "title": "Validator authority always comes from the vote account", "statement": "A validator stake account's authority is set at creation and changed only by ValidatorSyncAuthority, both times to the withdraw authority stored in the account's own vote account at that moment; the sync changes nothing else.", "quantifier": "every state, instruction and input", "why_tests_cant": "All instructions, all substitutions.", "anchors": ["program/src/processor/validator_sync_authority.rs", "program/src/processor/initialize_validator_stake.rs"]}
{"id": "C33", "title": "A stake authority can always get tokens out", "statement": "In every reachable state, a stake authority whose cooldown has passed can unstake any amount up to the cap with a correct account list: the instruction succeeds if the token accounts involved can take part in transfers, the pool holds the deposit, the pending rewards are payable from the config above its rent and the chain has fewer than 2^64 lamports.", "quantifier": "every reachable state, account list and amount satisfying SpecLive.good_unstake", "why_tests_cant": "Liveness: no reachable state may lock funds through arithmetic failures.", "anchors": ["program/src/processor/unstake_tokens.rs", "program/src/processor/mod.rs:sync_effective"]}
{"id": "C34", "title": "Configs are isolated", "statement": "An instruction naming one config changes the data of no other config account and of no stake account derived from another config, and takes no lamports from another config.", "quantifier": "every state and instruction", "why_tests_cant": "All substitutions of accounts across configs.", "anchors": ["program/src/processor/*.rs", "program/src/state/mod.rs"]}
{"id": "C35", "title": "Harvests never take the config below rent", "statement": "After any instruction that pays rewards the config account still holds at least the rent-exempt minimum for its size, and in every reachable state an initialised config is rent exempt.", "quantifier": "every finite history of successful instructions (any accounts, signers, amounts, oracle answers) interleaved with any outside activity the Solana rules allow, starting before any config exists", "why_tests_cant": "Every path out of the config.", "anchors": ["program/src/processor/mod.rs:harvest", "program/src/processor/initialize_config.rs"]}
{"id": "C36", "title": "Internal consistency checks never fire", "statement": "In every reachable state the effective-amount subtraction and the validator-total subtraction of every instruction are in range, and a well-formed HarvestSolStakerRewards succeeds for every view answer whose caps fit 64 bits, provided the pending rewards are payable.", "quantifier": "every finite history of successful instructions (any accounts, signers, amounts, oracle answers) interleaved with any outside activity the Solana rules allow, starting before any config exists", "why_tests_cant": "Requires the bookkeeping invariants of all histories.", "anchors": ["program/src/processor/mod.rs:sync_effective", "program/src/processor/harvest_sol_staker_rewards.rs"]}
{"id": "C37", "title": "Solvency holds for every stake authority but not for every keeper", "statement": "Solvency (C18) holds for every choice of stake authorities, but not for every keeper: when the previous validator's authority and the keeper are both the config address, one HarvestSolStakerRewards credits rewards to an effective amount that did not exist when they arrived, and a reachable history ends up owing more than it holds.", "quantifier": "every history of C18; a concrete reachable history for the keeper", "why_tests_cant": "Requires three account roles to coincide and amounts to match.", "anchors": ["program/src/processor/mod.rs:harvest", "program/src/processor/harvest_sol_staker_rewards.rs", "program/src/processor/validator_sync_authority.rs"]}
{"id": "C38", "title": "Topping up from the own wallet works only when no reward is pending", "statement": "A well-formed staking instruction succeeds if nothing is pending or the paying wallet is not the stake authority; with the authority's own wallet it succeeds only if nothing is pending, because the harvest changes the wallet's lamports before the token CPI that includes the wallet but not the config, which the runtime rejects as unbalanced. So topping up from the own wallet while rewards are pending is impossible, as a reachable state shows.", "quantifier": "every reachable state", "why_tests_cant": "Depends on runtime balance checks at CPI time; the tests only stake with nothing pending.", "anchors": ["program/src/processor/validator_stake_tokens.rs", "program/src/processor/sol_staker_stake_tokens.rs"]}
{"id": "C39", "title": "Holder claim right after staking is exactly the advance made by the deposit", "statement": "Right after staking, the holder-reward claim of the account is exactly its whole stake times the advance of the vault's accumulator during the instruction's own deposit; it is zero when the deposit does not advance it. The stake program records the accumulator before the deposit, so new tokens can get a claim on earlier rewards, as a reachable state shows.", "quantifier": "every reachable state and every pool accumulator value", "why_tests_cant": "Depends on the interaction of two programs.", "anchors": ["program/src/processor/validator_stake_tokens.rs", "program/src/processor/sol_staker_stake_tokens.rs", "program/src/processor/mod.rs:harvest"]}
{"id": "C40", "title": "Permissionless instructions are harmless", "statement": "Instructions that need no stake or config authority signature (initialisations, harvests, authority sync, staking for somebody else) never lower any staked amount, never change a cooldown, and send lamports only to a recorded authority of a stake account of that config, the named keeper, the config or its vault authority; lamports leave only the config, its vault authority or an account of the rewards program.", "quantifier": "every state and input", "why_tests_cant": "All account substitutions.", "anchors": ["program/src/processor/harvest_validator_rewards.rs", "program/src/processor/harvest_sol_staker_rewards.rs", "program/src/processor/harvest_holder_rewards.rs", "program/src/processor/validator_sync_authority.rs"]}
{"id": "C41", "title": "Moves conserve stake and keep the stricter cooldown", "statement": "A successful SolStakerMoveTokens(amount) moves exactly amount between two different SOL staker accounts of the same config and same signing authority; the destination's cooldown becomes the maximum of both, the source's stays.", "quantifier": "every state and input", "why_tests_cant": "All aliasings and amounts.", "anchors": ["program/src/processor/sol_staker_move_tokens.rs"]}
{"id": "C42", "title": "Harvesting often never pays more", "statement": "The sum of rewards from harvesting at two points in time is at most the reward of harvesting once at the end, and less than it by at most one lamport per reward kind.", "quantifier": "all accumulator values with non-wrapping total growth, all amounts", "why_tests_cant": "Rounding over the whole range.", "anchors": ["program/src/state/mod.rs:calculate_eligible_rewards"]}
{"id": "C43", "title": "Accumulator wrap-around does not lose or create rewards", "statement": "As long as less than 2^128 of rate accrues between two harvests, the reward computed from the wrapped accumulators equals the reward computed with unbounded integers.", "quantifier": "all accumulator values", "why_tests_cant": "Wrap-around cannot be reached by tests.", "anchors": ["program/src/state/mod.rs:calculate_eligible_rewards", "program/src/processor/mod.rs:sync_config_lamports"]}
{"id": "C44", "title": "Lamports arriving with no effective stake are never distributed", "statement": "Lamports that arrive at the config while token_amount_effective is 0 are recorded as seen and increase nobody's entitlement, then or later.", "quantifier": "every history during which the effective total is zero before each step and no keeper is the config account; every stake account", "why_tests_cant": "Statement about all later histories.", "anchors": ["program/src/processor/mod.rs:sync_config_lamports", "program/src/state/mod.rs:calculate_stake_rewards_per_token"]}
{"id": "C45", "title": "One stake account per validator or native stake and config", "statement": "Two different initialised stake accounts of the same kind never share both the config and the vote account (respectively native stake).", "quantifier": "every finite history of successful instructions (any accounts, signers, amounts, oracle answers) interleaved with any outside activity the Solana rules allow, starting before any config exists", "why_tests_cant": "Uniqueness over all histories.", "anchors": ["program/src/state/mod.rs:find_validator_stake_pda", "program/src/state/mod.rs:find_sol_staker_stake_pda"]}
{"id": "C46", "title": "A stake account never loses lamports", "statement": "Once a validator or SOL-staker stake account exists, its lamport balance never decreases, it keeps its kind, and it always covers the rent-exempt minimum for its size; no instruction closes it or pays out of it.", "quantifier": "all reachable states, all later states, all stake accounts", "why_tests_cant": "A test checks a balance after one instruction; that no sequence of instructions, by any party, with any aliasing of accounts, can drain a stake account needs an invariant over all of them.", "anchors": ["program/src/processor/mod.rs: harvest", "program/src/processor/initialize_validator_stake.rs", "program/src/processor/initialize_sol_staker_stake.rs"]}
{"id": "C47", "title": "Tokens can always be moved between own stakes", "statement": "In every reachable state the authority of two SOL staker stake accounts of the same config can move any amount up to the source's stake between them with a correct account list, provided their pending rewards are payable from the config above its rent; no bookkeeping of the program stands in the way, and the cooldown does not either.", "quantifier": "every reachable state, account list and amount satisfying SpecLive.good_move", "why_tests_cant": "success must hold for every reachable combination of caps, pending rewards, wrapped accumulators and totals, not for the few set up in tests", "anchors": ["program/src/processor/sol_staker_move_tokens.rs", "program/src/processor/mod.rs"]}
{"id": "C48", "title": "Only accounts declared writable change, except two reward recipients", "statement": "Every account an instruction changes is at a position its account list declares writable (instruction.rs attributes, copied into the generated clients), with two exceptions: ValidatorStakeTokens pays the validator stake authority and SolStakerMoveTokens pays the staker authority, and both are declared read-only. So with the declared accounts writable the runtime never rejects a balanced instruction, except these two when a reward is pending; then an instruction built exactly as declared fails, although it succeeds once the authority is writable for another reason.", "quantifier": "forall environments, contexts, account lists, instructions and worlds (no reachability needed); the two exceptions are exhibited in reachable worlds", "why_tests_cant": "The repository's tests use fee payers or accounts without pending rewards; whether every touched account is declared writable depends on all aliasing patterns and all branches of sixteen handlers.", "anchors": ["program/src/instruction.rs:13-799", "program/src/processor/mod.rs:299-386", "clients/rust/src/generated/instructions/validator_stake_tokens.rs:71-74", "clients/rust/src/generated/instructions/sol_staker_move_tokens.rs:47-50"]}
{"id": "C49", "title": "Signatures are asked for exactly where declared", "statement": "An instruction succeeds only if every account its declaration marks as signer has signed, and its result depends on no other signature: two transactions that agree on the declared signers give the same result.", "quantifier": "forall environments, worlds, account lists, instructions and pairs of contexts agreeing on the declared signers", "why_tests_cant": "Tests omit one signature at a time; they cannot show that no combination of other signatures (including those of derived addresses used in CPIs) changes the outcome.", "anchors": ["program/src/instruction.rs:13-799", "program/src/processor/unstake_tokens.rs:105-116", "program/src/processor/mod.rs:421-496"]}
{"id": "C50", "title": "The entry point does what the histories assume", "statement": "For instruction data that is a list of bytes, a successful process_instruction decodes to exactly one documented instruction, names its accounts by position and is one step of the histories used by all other properties (its integers are in range); conversely every in-range instruction is reached by some data. Fewer accounts than declared are refused with NotEnoughAccountKeys, further accounts are ignored.", "quantifier": "forall byte strings, account lists, contexts and worlds", "why_tests_cant": "The instruction decoder takes arbitrary attacker-chosen bytes and account lists of any length.", "anchors": ["program/src/entrypoint.rs:9-20", "program/src/processor/mod.rs:50-193", "program/src/instruction.rs:903-1008"]}
{"id": "C51", "title": "Governance and initialisation succeed exactly when their conditions hold", "statement": "UpdateConfig, SetAuthority, ValidatorSyncAuthority, InitializeConfig, InitializeValidatorStake and InitializeSolStakerStake succeed if and only if an explicit list of conditions on the accounts holds: the named authority is set and signs; derived addresses match; the account to create is unused and funded; the DUNA document of the withdrawer is signed; the vault is empty and controlled by the vault address alone; the view reports a delegated stake whose validator has a stake account. No other account, signature or state can block them or let them through.", "quantifier": "forall environments, worlds, contexts and account lists in which the changed accounts are writable (no reachability needed)", "why_tests_cant": "An exact success condition needs every rejected input, not a sample of single-fault inputs, and also that nothing outside the list matters.", "anchors": ["program/src/processor/update_config.rs:21-79", "program/src/processor/set_authority.rs:22-78", "program/src/processor/validator_sync_authority.rs:13-70", "program/src/processor/initialize_config.rs:30-160", "program/src/processor/initialize_validator_stake.rs:25-142", "program/src/processor/initialize_sol_staker_stake.rs:25-212"]}
{"id": "C52", "title": "Validator harvests, overrides and holder harvests go through", "statement": "In every reachable state a well-formed HarvestValidatorRewards, ValidatorOverrideStakedLamports or HarvestHolderRewards whose payment can be afforded (by the config, respectively the rewards pool) succeeds: none of the program's own checked operations, rent checks or address checks fires.", "quantifier": "forall environments, reachable worlds, contexts, account lists and amounts satisfying the well-formedness records of SpecLive.v", "why_tests_cant": "Depends on invariants of all reachable states (effective totals, caps, accumulators) so that no checked subtraction fails after an arbitrary history.", "anchors": ["program/src/processor/harvest_validator_rewards.rs", "program/src/processor/validator_override_staked_lamports.rs:12-96", "program/src/processor/harvest_holder_rewards.rs"]}
{"id": "C53", "title": "Aborts happen in two situations only", "statement": "In every reachable state an instruction that does not pay the config itself aborts (instead of returning an error) only when ValidatorSyncAuthority names a validator stake that is not initialised, or when the config cannot pay the claims the instruction settles and stay rent exempt; the instruction decoder and account list never abort, and every settling instruction that succeeds could afford its claims. Both aborts are reachable: after four pool settlements that round down, a staker's own UnstakeTokens aborts, and for a sole staker lamports given to the config do not cure it because they raise the claim too.", "quantifier": "forall environments, reachable worlds, contexts, instruction bytes and account lists; refutations by concrete reachable histories (one of them for every gift up to 10^9 lamports)", "why_tests_cant": "Whether an assert or unwrap can fire depends on every reachable state; the shortage is a few lamports of accumulated rounding after a specific history.", "anchors": ["program/src/processor/mod.rs:299-386", "program/src/processor/mod.rs:498-525", "program/src/processor/validator_sync_authority.rs:13-70", "program/src/processor/initialize_sol_staker_stake.rs:54", "program/src/processor/harvest_sol_staker_rewards.rs:153-213", "program/src/processor/unstake_tokens.rs:131-145"]}
{"id": "C54", "title": "Only the right accounts are accepted", "statement": "If an instruction succeeds, the accounts it was given are the right ones: the config and stake accounts are the program's, the stake account is the one derived for the config, the authority is the one recorded, the vault is the config's recorded token account and is held by the vault address of that config, the holder account is the vault's, the pool is the pool of the mint, the mint is a mint of the token program and the vault's mint, the token program is the real one, the source of tokens may be spent by the signer and holds the amount, required signers signed, the cap is computable and the config can pay the claim.", "quantifier": "for every instruction that settles rewards or moves tokens, every context, account list and reachable state in which it succeeds", "why_tests_cant": "A test that passes a wrong account shows that one wrong account is refused in one state. The property speaks of every account slot, every possible substitute and every reachable state, including accounts an attacker created for the purpose.", "anchors": ["program/src/processor/mod.rs", "program/src/processor/unstake_tokens.rs", "program/src/processor/validator_stake_tokens.rs", "program/src/processor/sol_staker_stake_tokens.rs", "program/src/processor/slash_validator_stake.rs", "program/src/processor/harvest_sol_staker_rewards.rs", "program/src/processor/harvest_holder_rewards.rs"]}
{"id": "C55", "title": "Exact success conditions of the settling instructions", "statement": "With writable accounts, an authority other than the config and fewer than 2^64 lamports in existence, HarvestValidatorRewards, ValidatorOverrideStakedLamports, SolStakerMoveTokens and HarvestHolderRewards succeed exactly when the listed conditions on the accounts hold: nothing else can make them fail and nothing less lets them through.", "quantifier": "for every context, account list, amount and reachable state", "why_tests_cant": "Each direction is a statement about all states: no state meeting the conditions fails and no state violating one of them succeeds. Tests sample a few states on either side.", "anchors": ["program/src/processor/harvest_validator_rewards.rs", "program/src/processor/validator_override_staked_lamports.rs", "program/src/processor/sol_staker_move_tokens.rs", "program/src/processor/harvest_holder_rewards.rs"]}
{"id": "C56", "title": "Derived addresses never coincide", "statement": "With a collision-free hash, the vault, validator stake, SOL staker stake and override addresses of all configs, votes, native stakes and authorities are pairwise different, different from the holder and pool addresses and from the program ids, and the vault's bump recreates it; documents of different signers or hashes have different addresses, none of which is an address of this program.", "quantifier": "for every hash function without collisions, every key and every program id", "why_tests_cant": "The seed strings and key orders must make the hashed byte strings different for all keys of all kinds, including strings that are prefixes of each other; tests derive a handful of addresses.", "anchors": ["program/src/state/mod.rs"]}
{"id": "C57", "title": "Signer seeds recreate the found address", "statement": "The address search never fails on the program's seeds and returns the largest usable bump; each list of signer seeds with that bump gives the found address, and with any other bump does not.", "quantifier": "for every config, key, program id, bump and hash without collisions", "why_tests_cant": "Finder and signer seeds are separate functions that must agree for all keys, and bumps other than 255 occur only for some keys.", "anchors": ["program/src/state/mod.rs"]}
{"id": "C58", "title": "Clients derive the program's addresses", "statement": "The Rust client's four address functions give the addresses the program derives; the JavaScript client's findVaultPda gives one too.", "quantifier": "for every config, key and program id", "why_tests_cant": "An address helper is wrong for all inputs or none; whether any input at all makes the wrong helper's address acceptable is a statement about all keys and all instructions.", "anchors": ["clients/rust/src/pdas.rs", "clients/js/src/generated/pdas/vault.ts", "program/src/state/mod.rs"]}
{"id": "C59", "title": "The client builds what the program runs", "statement": "The accounts and data built by the client for an instruction are parsed by the program as that instruction with those accounts and arguments, an omitted keeper as none; and the signer and writable privileges listed are enough for everything that can succeed at all, except a payment to the two recipients of C48.", "quantifier": "for every instruction, accounts, arguments, extra accounts and state", "why_tests_cant": "Positions and flags must agree for sixteen instructions in two code bases for all accounts, including equal ones; tests use a few distinct keys.", "anchors": ["clients/rust/src/generated/instructions", "program/src/instruction.rs", "program/src/processor/mod.rs"]}
{"id": "C60", "title": "Account readers return the stored fields", "statement": "The client's readers of the three account types return exactly the fields the program stored, whatever bytes follow, and succeed with the right discriminator on nothing else; unset authorities read as none; and they tell the kinds of account apart.", "quantifier": "for every account content and every byte string", "why_tests_cant": "The layouts are written twice with different libraries; equality of all fields for all values is not sampled by a few accounts.", "anchors": ["clients/rust/src/generated/accounts", "clients/rust/src/generated/types/delegation.rs", "clients/rust/src/hooked/nullable_address.rs", "program/src/state/config.rs"]}
{"id": "C61", "title": "Clients name the program's errors", "statement": "The client maps every custom error code of the program to the error of the same name, and different errors have different codes.", "quantifier": "for every custom error", "why_tests_cant": "The two enumerations are maintained separately; a shifted entry shows only for the errors behind it.", "anchors": ["program/src/error.rs", "clients/rust/src/generated/errors/paladin_stake_program.rs"]}
{"id": "C62", "title": "Delegation of either kind of stake account", "statement": "unpack_delegation_mut_checked succeeds exactly on the bytes of an initialised stake account passed at its own derived address, returns its delegation, and aborts exactly on fewer than eight bytes.", "quantifier": "for every byte string, address and config", "why_tests_cant": "The function is called by no handler and no test; the claim is about all byte strings.", "anchors": ["program/src/processor/mod.rs"]}
{"id": "C63", "title": "Exact success conditions of the token instructions", "statement": "Staking, unstaking and slashing succeed exactly when the named conditions hold: the accounts are the right ones, their holders signed, the amounts are in range, the token program and the rewards pool can do their part, and neither config, stake nor a paid authority is among the accounts handed to them. Every failure violates one of the conditions.", "quantifier": "for every reachable state, context, account list and amount, when no account plays two of the named roles", "why_tests_cant": "An equivalence over all account lists and states: tests see single failures and single successes.", "anchors": ["program/src/processor/validator_stake_tokens.rs", "program/src/processor/sol_staker_stake_tokens.rs", "program/src/processor/unstake_tokens.rs", "program/src/processor/slash_validator_stake.rs", "program/src/processor/slash_sol_staker_stake.rs", "program/src/processor/mod.rs"]}
{"id": "C64", "title": "Exact success conditions of the SOL-staker harvest", "statement": "HarvestSolStakerRewards succeeds exactly when the staker's account, authority, native stake and view program are the right ones, the config can pay everybody settled and stay rent exempt, and, if the delegation changed, a keeper is given, the stake accounts and authorities of the validators left and joined are the right ones, and the new totals and caps fit 64 bits. While nothing changed, neither keeper nor validators matter.", "quantifier": "for every reachable state, context and account list, when no recipient is the config itself", "why_tests_cant": "An equivalence over all states, answers of the view program and account lists, with up to three settlements and three re-synchronisations in one instruction.", "anchors": ["program/src/processor/harvest_sol_staker_rewards.rs", "program/src/processor/mod.rs"]}
{"id": "C65", "title": "The JavaScript client builds what the program runs", "statement": "Building an instruction with the JavaScript client succeeds exactly when the numbers fit their fields; the accounts, privileges and data are those of the Rust client for the same inputs, with omitted program accounts replaced by the usual ones; the program runs it as the call that was meant, and the privileges are as sufficient as in C59. A 32-byte document hash is sent unchanged.", "quantifier": "for every instruction, input, omitted account and state", "why_tests_cant": "Sixteen separately generated builders with optional accounts and defaults; agreement for all inputs, including out-of-range numbers, is not sampled by the repository's JavaScript test.", "anchors": ["clients/js/src/generated/instructions", "clients/js/src/generated/shared/index.ts", "clients/js/src/generated/types"]}
{"id": "C66", "title": "Parsing instructions in JavaScript", "statement": "identifyPaladinStakeProgramInstruction names exactly the data whose first byte is a known number, and agrees with the program's own decoding; whatever accounts and data the program accepts are parsed to the program's reading of them; what is parsed under the identified kind is what the program reads once trailing bytes are dropped; parsing what was built gives back the inputs; and parsers refuse data of another kind and data the program refuses.", "quantifier": "for every byte string and account list", "why_tests_cant": "Two independent decoders must agree on all byte strings and account lists, including wrong lengths.", "anchors": ["clients/js/src/generated/programs/paladinStakeProgram.ts", "clients/js/src/generated/instructions", "program/src/instruction.rs"]}
{"id": "C67", "title": "JavaScript account codecs", "statement": "The JavaScript decoders return exactly the stored fields of the three account types (unset authorities as null), whatever bytes follow, losing nothing; encoding what was decoded gives back the bytes; the size functions give the stored lengths; and the decoders tell the kinds of account apart.", "quantifier": "for every account content and byte string", "why_tests_cant": "Field order, widths and nullability are repeated by hand-written and generated codecs; equality for all values needs a proof.", "anchors": ["clients/js/src/generated/accounts", "clients/js/src/generated/types/delegation.ts", "clients/js/src/hooked/nullableAddress.ts"]}
{"id": "C68", "title": "Nullable values in both clients", "statement": "NullableAddress and NullableU64 of the two clients write and read the same bytes, read zero as absent and everything else as itself, and every JavaScript encoder and decoder pair combines into a codec.", "quantifier": "for every value and byte string", "why_tests_cant": "No test builds the NullableU64 codec; agreement over all values is not sampled.", "anchors": ["clients/js/src/hooked", "clients/rust/src/hooked"]}
{"id": "C69", "title": "JavaScript error names and messages", "statement": "For every custom error of the program the JavaScript client exports the constant of that name with the program's code, and gives the program's message for the code; codes and names are distinct and exactly the codes 0 to 25 have messages.", "quantifier": "for every custom error and every code", "why_tests_cant": "Three hand-maintained orders (enum, constants, messages sorted by name); a swapped pair shows only for the errors concerned.", "anchors": ["clients/js/src/generated/errors/paladinStakeProgram.ts", "program/src/error.rs"]}
{"id": "C70", "title": "An instruction sees and changes only the accounts passed to it", "statement": "The outcome of an instruction (success, error value or abort) and the new contents of the accounts passed to it depend only on those accounts, the context and the data; accounts not passed, or passed read-only, keep lamports, owner and contents.", "quantifier": "for every context, account list, instruction data and pair of worlds agreeing on the listed accounts", "why_tests_cant": "It compares pairs of executions over all states of all other accounts.", "anchors": ["program/src/processor"]}
{"id": "C71", "title": "Independent instructions commute", "statement": "Two instructions neither of which writes an account the other one names have the outcomes they would have alone, and both orders give the same accounts; any permutation of pairwise independent instructions gives the same accounts, failing ones included.", "quantifier": "for every world and every list of pairwise independent instructions and every permutation of it", "why_tests_cant": "The runtime executes such transactions in parallel; tests submit one at a time and cannot cover all interleavings.", "anchors": ["program/src/processor"]}
{"id": "C72", "title": "Leaving by unstaking", "statement": "By unstaking the most allowed again and again, waiting for the cooldown in between, a staker gets all but a remainder smaller than 10000 divided by the cap in basis points, each unit arriving at the destination; with a cap of 100 percent one unstake empties the stake; below that the remainder can never be unstaked, and a stake that is neither slashed nor moved never becomes empty.", "quantifier": "for every reachable state, stake, cap and any later history", "why_tests_cant": "It is a statement about unboundedly many unstakes and about what no history can do.", "anchors": ["program/src/processor/unstake_tokens.rs", "program/src/state/mod.rs"]}
{"id": "C73", "title": "Errors tell the truth", "statement": "Whenever an instruction fails with one of the program's own errors, or with a specific program error such as InvalidSeeds, MissingRequiredSignature or AccountNotRentExempt, then what the error says is the case in the accounts as they were before the instruction: the cooldown really is running, the cap really is exceeded, the named account really is the wrong one. Instructions never fail with an error that does not concern them.", "quantifier": "for every reachable state, instruction, list of accounts and arguments, and every error value", "why_tests_cant": "A test shows one failing input per error; it cannot show that no other input produces the same error for another reason.", "anchors": ["program/src/error.rs", "program/src/processor/mod.rs", "program/src/processor/unstake_tokens.rs", "program/src/processor/harvest_sol_staker_rewards.rs", "program/src/processor/slash_validator_stake.rs"]}
{"id": "C74", "title": "Fair share over a whole history", "statement": "Over any stretch of history, the staking rewards a stake account was paid and would be paid now add up to at most what it was owed at the start plus, for each distribution, its part (effective amount over effective total) of the lamports that had arrived; and to less only by one lamport per payment and 10^-18 lamports per unit of effective stake and distribution. Over its whole life a stake account gets at most its parts.", "quantifier": "for every reachable state, every history from it without keeper payments to the config, every stake account; the lower bound as long as less than the accumulator's range accrues between two payments", "why_tests_cant": "It is a statement about arbitrarily long histories in which stakes, totals and payments interleave, with rounding accumulating at each step.", "anchors": ["program/src/processor/mod.rs", "program/src/state/mod.rs"]}
{"id": "C75", "title": "Transactions are histories", "statement": "Every state reached by whole transactions (instructions of this program mixed with those of others, the runtime's rent check at the end, removal of accounts without lamports) is reached by a history of single steps, so everything proved of histories holds of transactions; at transaction boundaries every account is rent exempt or absent, and an initialised account of the program is never removed.", "quantifier": "for every chain of transactions from a state without initialised accounts, of any length and content", "why_tests_cant": "It quantifies over all sequences of transactions and over whatever other programs do in them.", "anchors": ["program/src/processor/mod.rs", "program/src/processor/initialize_config.rs", "program/src/processor/initialize_validator_stake.rs"]}
{"id": "C76", "title": "A vault authority stays with the program", "statement": "After InitializeConfig the vault authority belongs to the program for ever and holder rewards can be collected from it. This holds if it had lamports when the config was created. If it had none, the runtime drops the assignment at the end of the transaction: it then belongs to the system program for ever, no lamport ever leaves it, a successful HarvestHolderRewards moves nothing to the config, and with one lamport above the rent minimum no HarvestHolderRewards ever succeeds again; stakers can then be unable to unstake.", "quantifier": "for every chain of transactions, every config and every later history", "why_tests_cant": "It is about what no later history can undo.", "anchors": ["program/src/processor/initialize_config.rs", "program/src/processor/harvest_holder_rewards.rs"]}
{"id": "C77", "title": "What the rent check refuses", "statement": "A transaction of this program's instructions that all succeed is refused by the runtime's rent check exactly when one of them paid a stake authority, keeper or vault authority that did not exist and left it below the rent minimum of an empty account; if everybody who is paid exists, nothing is refused. A staker without a wallet and with a small pending reward can therefore not be slashed, nor have a minimum overridden, by any single-instruction transaction. In worlds that still hold accounts short of their rent minimum, the check accepts exactly the transactions that make no account short, resize no short account and add nothing to one unless it becomes exempt.", "quantifier": "for every reachable state with settled accounts (for the last part: every state at all), every list of instructions, accounts and arguments", "why_tests_cant": "Tests run single instructions in a simulated bank with funded accounts; the statement covers all instruction lists and all account states.", "anchors": ["program/src/processor/mod.rs", "program/src/processor/slash_sol_staker_stake.rs", "program/src/processor/validator_override_staked_lamports.rs"]}
{"id": "C78", "title": "The interface description agrees with the program", "statement": "An instruction built from idl.json alone (discriminant, arguments and accounts in the listed order with the listed privileges) is run by the program as intended, for all sixteen instructions and nothing else; account data read by the described types is what the program reads, for all bytes; the error codes, names and messages are the program's. The description is not self-contained: two types are used and not defined, and without them no account can be read.", "quantifier": "for every instruction, argument values within their types, accounts, and every byte string at least as long as the account", "why_tests_cant": "Tests use the generated clients on a few values; the statement is about the description itself and all values.", "anchors": ["program/idl.json", "program/src/instruction.rs", "program/src/state/config.rs", "scripts/generate-clients.mjs"]}
{"id": "C79", "title": "Holder rewards over a whole history", "statement": "Over any stretch of history, the holder rewards paid to a stake account plus those owed to it now are at most what it was owed at the start plus, for every advance of the vault's holder accumulator, the advance times the tokens then staked on the account; and less than that only by under a lamport per payment (as long as no more than the 128-bit range accrues between payments).", "quantifier": "for every environment, every history of instructions and foreign steps, every config and stake account", "why_tests_cant": "Tests run one harvest after one reward; the statement sums over histories of any length with interleaved staking, unstaking, moves, slashes and re-syncs.", "anchors": ["program/src/processor/mod.rs", "program/src/processor/harvest_holder_rewards.rs", "program/src/processor/harvest_sol_staker_rewards.rs", "program/src/processor/harvest_validator_rewards.rs"]}
{"id": "C80", "title": "The Rust client's builders", "statement": "Whatever the order and number of setter calls, each builder of the Rust client yields the instruction that was asked for, and the program runs it as intended; with an account or argument missing it panics. The builders for calls from other programs yield the same instruction and hand over every account it names. Of remaining accounts they use the two flags in the opposite order to their documentation: an account added as writable is asked to sign.", "quantifier": "for every instruction, all values, every sequence of setter calls and every remaining account", "why_tests_cant": "The tests use the plain builders for a few instructions; the CPI builders are not used by any test.", "anchors": ["clients/rust/src/generated/instructions/mod.rs", "clients/rust/src/generated/instructions/validator_stake_tokens.rs", "clients/rust/src/generated/instructions/harvest_sol_staker_rewards.rs", "clients/rust/src/generated/instructions/update_config.rs"]}
{"id": "C81", "title": "The program keeps the staking book", "statement": "The program refines a small machine, the staking book, which knows nothing of accounts, reward rates or called programs. One page holds a config's terms, one entry each stake (tokens, what they count for, cooldown, owner, vote account, the SOL behind it). Every successful instruction is an operation the book allows to its signers, and changes the book exactly as the machine says; what the machine refuses, the program refuses; nothing outside the program changes the book. So the book kept from the instructions alone equals what the accounts show at any time, and two histories with the same operations show the same book, whatever rewards were paid, whatever other configs and programs did.", "quantifier": "for every config, every history from genesis, every interleaving with other configs and programs", "why_tests_cant": "Tests compare a few fields after a few instructions; they cannot show that no instruction, on any history, changes anything else, nor that stakes are independent of rewards and of other configs.", "anchors": ["program/src/processor/mod.rs", "program/src/processor/harvest_sol_staker_rewards.rs", "program/src/processor/sol_staker_move_tokens.rs", "program/src/processor/unstake_tokens.rs", "program/src/processor/initialize_sol_staker_stake.rs", "program/src/state/config.rs", "program/src/state/sol_staker_stake.rs", "program/src/state/validator_stake.rs"]}
{"id": "C82", "title": "The order of harvests does not matter", "statement": "Harvests that only pay (every validator harvest, and a SOL stake harvest for which the view program reports the recorded validator and lamports) of different stake accounts of one config can be executed in any order: if they succeed in one order they succeed in every order, and every account ends up with the same lamports, owner and data. This holds although all of them write the config account: the first one to run brings the reward rate up to date, pays, and lowers the recorded lamports.", "quantifier": "for every reachable state, every list of such harvests of different stake accounts, every permutation of it", "why_tests_cant": "The number of orders grows with the factorial of the number of stake accounts; a test tries one or two of them, with rewards that divide evenly.", "anchors": ["program/src/processor/mod.rs", "program/src/processor/harvest_validator_rewards.rs", "program/src/processor/harvest_sol_staker_rewards.rs"]}
{"id": "C83", "title": "Overflow errors tell the truth", "statement": "Whenever an instruction fails with an arithmetic overflow, one of the following was the case in the accounts before it: the config was named as an account to be paid; the config held fewer lamports than the settled stake accounts are owed; a stake limit (130% of the delegated lamports) does not fit 64 bits; the vault's deposit plus the amount staked does not fit 64 bits; or more tokens were to be moved than the source has. No other addition, subtraction, multiplication or conversion of any handler can fail, and six of the sixteen instructions never overflow. With amounts of SOL that exist (at most 10^18 lamports per account) only naming the config as payee, a config that owes more than it holds, or an absurd amount in the call can cause it.", "quantifier": "all reachable worlds with fewer than 2^64 lamports, all calls and contexts", "why_tests_cant": "Every checked operation in every handler has to be shown safe from the invariants of all histories (sum of stakes bounded by the deposit, effective total is a sum, delegated lamports are summed in the validator's total); tests exercise only a handful of amounts.", "anchors": ["program/src/processor/mod.rs", "program/src/processor/harvest_sol_staker_rewards.rs", "program/src/processor/sol_staker_move_tokens.rs", "program/src/processor/validator_override.rs", "program/src/processor/unstake_tokens.rs"]}
{"id": "C84", "title": "A run on the config", "statement": "When any number of different stake accounts of a config harvest one after the other (validators, and SOL stakers for whom nothing changed), the whole row goes through exactly when the config can pay all of their rewards together and stay rent exempt; everybody gets exactly what they were owed at the start, the config pays exactly the sum, and nobody else's lamports or claims change. Whatever happened since the config was created, if the lamports present at its creation cover its rent, what the vault authority still holds, and the rounding allowance of C18, then everybody can be paid, in any order.", "quantifier": "all reachable worlds, all lists of harvests of different stake accounts, all orders, all histories since the creation of the config", "why_tests_cant": "A test harvests two or three accounts; whether the last of arbitrarily many is still paid depends on the rounding of every earlier settlement in the history.", "anchors": ["program/src/processor/mod.rs", "program/src/processor/harvest_validator_rewards.rs", "program/src/processor/harvest_sol_staker_rewards.rs"]}
{"id": "C85", "title": "Splitting a position gains nothing", "statement": "SOL stake accounts of one config that were last paid at the same time together count for at most as many tokens as one stake account with all their tokens and all their native stake would, and are together owed at most what that one account would be owed. If each of them has the native stake its tokens need, the split costs at most two lamports per account.", "quantifier": "all reachable worlds, all lists of SOL stake accounts, all accumulator values including wrapped ones", "why_tests_cant": "Any number of pieces with any proportions and roundings; no test compares a split position with a merged one.", "anchors": ["program/src/state/mod.rs:calculate_maximum_stake_for_lamports_amount", "program/src/state/mod.rs:calculate_eligible_rewards", "program/src/processor/mod.rs:harvest"]}
{"id": "C86", "title": "What the documentation promises", "statement": "README.md and the comments in the source are checked against the program. False: that staked tokens are limited to 1.3 (or 0.65) times the SOL, that the config tracks the staked total, that validators track their stakers' tokens, that unstaking is permissionless, that the cooldown has to pass before tokens come out, and that the config authority can modify every element. True: anybody can create accounts. In place of the false ones the theorems say what holds: moving a staker's tokens changes no validator's account, unstaking always needs the stake authority's signature and delivers at once, and without the slash authority's signature the slash authority, vault, bump and document hash stay.", "quantifier": "all reachable worlds, contexts and instructions; the false promises by reachable counterexamples", "why_tests_cant": "The tests were written next to the code and do not read the documentation; the replacements speak about all instructions.", "anchors": ["README.md", "program/src/instruction.rs:StakeInstruction", "program/src/state/config.rs:Config", "program/src/state/sol_staker_stake.rs:SolStakerStake", "program/src/state/validator_stake.rs:ValidatorStake"]}
{"id": "C87", "title": "Every changed byte belongs to a field the instruction is there to write", "statement": "The fields of Config, ValidatorStake and SolStakerStake lie where Rust's repr(C) rules put them, without implicit padding. If a successful instruction changes byte i of an account of the program, byte i lies in a field listed for that instruction and that account (e.g. a slash: three fields of the config, four of the stake account); types, lengths, discriminators, vault, DUNA hash, bump, padding and native-stake address never change byte-wise; SetAuthority, UpdateConfig and ValidatorSyncAuthority splice exactly the given bytes into exactly one field. No entry of the lists is superfluous: each instruction has a reachable run changing every listed field.", "quantifier": "all environments, contexts, instructions, worlds, accounts and byte positions (the tightness part: all instructions, existentially over reachable worlds)", "why_tests_cant": "A test compares the fields it thinks of; a stray write to some other byte of some account for some input is only excluded by reasoning about every account and every byte position of every successful run.", "anchors": ["program/src/state/config.rs:11-61", "program/src/state/mod.rs:229-252", "program/src/state/validator_stake.rs:17-37", "program/src/state/sol_staker_stake.rs:18-40", "program/src/processor/mod.rs", "program/src/processor/set_authority.rs", "program/src/processor/update_config.rs"]}
{"id": "C88", "title": "Nobody can squat on a stake address or get hold of a vault", "statement": "At every reachable state the derived stake address of a validator or native stake is either free or holds the rightful stake account of that validator or native stake; override addresses stay free for ever. A free stake address stays free and keeps every lamport sent to it, whatever happens, until its account is created, so creation still succeeds later when its conditions hold. The first creation of a staker account is the only one and its authority never follows the native stake's later withdrawer. A token account that only a vault authority controls stays under that control for ever: no other owner, no delegate, no close authority. Tokens sent to such an account before it is a vault lock it: it can never become the vault of its config and its tokens never leave.", "quantifier": "all environments, reachable states, histories, addresses, accounts and amounts", "why_tests_cant": "Tests create accounts right after funding them; squatting, waiting and early donations concern arbitrary histories of other people's transactions.", "anchors": ["program/src/processor/initialize_validator_stake.rs", "program/src/processor/initialize_sol_staker_stake.rs", "program/src/processor/initialize_config.rs:71-108", "program/src/processor/harvest_sol_staker_rewards.rs"]}
{"id": "C89", "title": "Every error from outside the program's own checks has the cause it names", "statement": "In every reachable state, when an instruction is refused with one of the errors the program does not raise by its own checks, that error tells the truth. InvalidAccountData, UninitializedAccount and a deserialisation failure mean that one of the accounts the instruction reads, as it was before the instruction, does not hold what is expected there and that this is the complaint its length calls for (the one exception is a SOL stake without withdrawer). TokenError and RewardsError arise only in the instructions that move tokens or use the rewards pool, and a system-program error never arises. InsufficientFunds and ExternalAccountLamportSpend arise only when harvesting holder rewards, from a vault authority below the rent minimum or one the program does not own. ReadonlyAccountModified means that the handler had succeeded and changed an account not passed as writable. UnbalancedInstruction means that a beneficiary of rewards was also handed to another program or was the config itself.", "quantifier": "all environments whose addresses do not collide, all reachable states, all instructions, contexts and errors", "why_tests_cant": "Tests check a handful of refusals by their error code; they do not show that no other situation yields the same code, which takes every account of every instruction into account and, for the runtime's errors, the sum of lamports over all accounts.", "anchors": ["program/src/processor/mod.rs:unpack_initialized", "program/src/processor/mod.rs:harvest", "program/src/processor/mod.rs:transfer_excess_lamports", "program/src/processor/harvest_holder_rewards.rs", "program/src/processor/validator_stake_tokens.rs", "program/src/processor/unstake_tokens.rs"]}
{"id": "C90", "title": "Calls to other programs stay within the declared privileges", "statement": "Every call an instruction makes to the system, token, rewards or stake view program is one the runtime permits, provided the instruction's accounts carry the privileges the program declares for them and the accounts named as system and rewards programs are those programs: the called program and every account of the call are among the instruction's accounts and are passed along, no account is writable in the call that is read-only for the instruction, and an account signs the call only if it signed the transaction or is the address of the signer seeds. So such an instruction goes through exactly if its handler and the runtime's final checks accept it. The called programs change only accounts the call marks writable. Conversely the result of a call, and its effect on the accounts named in it, depend only on those accounts and on the signatures of the accounts marked as signers.", "quantifier": "all instructions, account lists, contexts, states and account privileges at least as declared", "why_tests_cant": "Each test passes one fixed, complete account list; that no account of any call can lack a privilege, whatever keys coincide and whichever of the optional branches calls another program, is a statement about all account lists.", "anchors": ["program/src/processor/unstake_tokens.rs:187-229", "program/src/processor/validator_stake_tokens.rs:143-183", "program/src/processor/sol_staker_stake_tokens.rs:152-192", "program/src/processor/harvest_holder_rewards.rs:103-121", "program/src/processor/mod.rs:470-492", "program/src/processor/initialize_config.rs:57-61", "program/src/instruction.rs"]}
{"id": "C91", "title": "The staking rewards of a config all reach its stake accounts, but for rounding", "statement": "Take any stretch of history of a config, and add up the lamports its instructions distributed, the staking rewards they paid, the effective totals over which they distributed, and the number of payments. What was paid and what all stake accounts could claim now is never more than what they were owed at the start and what has arrived; and it is less by at most 10^-18 lamports per unit of effective stake for each distribution and one lamport for each payment or claim. Over a config's whole life, from its creation, this reads in lamports: arrived = paid + claimable + dust with the dust bounded by (sum of effective totals)/10^18 + number of payments and stake accounts. Every history in which the keeper is never the config itself has such books.", "quantifier": "all environments, reachable worlds, configs, histories of any length with any mixture of instructions and outside events; the lower bound for histories in which less than the accumulator's range accrues between two payments of an account", "why_tests_cant": "A test checks the amounts of a few harvests. That nothing leaks or is created in any interleaving of stakes, unstakes, slashes, moves, overrides and synchronising harvests by any number of accounts needs a sum over all accounts and an induction over histories.", "anchors": ["program/src/processor/mod.rs:sync_config_lamports", "program/src/processor/mod.rs:harvest", "program/src/processor/harvest_sol_staker_rewards.rs", "program/src/processor/sol_staker_move_tokens.rs"]}
{"id": "C92", "title": "A run on the tokens", "statement": "If each of several unstakes of different stakes of one config would go through on its own, the pool has no new rewards, the destinations have room for all of them and the config can pay the rewards pending for all of them, then they all go through one after the other, in any order: every stake loses exactly the amount asked for, every destination receives exactly the tokens sent to it, every authority the rewards that were pending for its stakes at the start, and all other stakes keep their tokens and claims. The last condition holds after any history covered by C18 that started with enough lamports. When everybody asks for everything, the tokens paid out are all the tokens staked and no effective stake is left.", "quantifier": "for every reachable state, every number of stakers, every set of amounts and every order", "why_tests_cant": "Tests unstake from one account; here any number of stakers drain the shared vault and pool, each unstake changing the config, the deposit and the accounts the next one depends on.", "anchors": ["program/src/processor/unstake_tokens.rs", "program/src/processor/mod.rs"]}
{"id": "C93", "title": "Tokens are conserved, and a delegate never takes more than it was allowed", "statement": "An instruction creates no tokens, and what it destroys of a mint's tokens is exactly what it takes from the mint's recorded supply; only slashes destroy any. A token account whose owner did not sign the instruction (and is no address this program or the rewards program signs for) either only receives tokens, or its delegate draws on the allowance: balance and allowance fall by the same amount, the delegation ends when the allowance is used up, and nothing else about the account changes. Over any number of instructions without the owner's signature, at most the allowance is taken.", "quantifier": "All environments, reachable worlds, contexts, instructions, mints, token accounts; all histories of this program's instructions that the owner did not sign.", "why_tests_cant": "The tests check balances of the accounts they set up, never the sum over all accounts of a mint, and stake with the owner's signature; delegates and repeated draws on one allowance are not tried.", "anchors": ["program/src/processor/sol_staker_stake_tokens.rs", "program/src/processor/validator_stake_tokens.rs", "program/src/processor/unstake_tokens.rs", "program/src/processor/mod.rs"]}
{"id": "C94", "title": "Where the holder rewards of a config go", "statement": "Take any stretch of history of a config and add up the lamports the rewards pool paid to its vault, the holder rewards paid to its stake accounts, what each advance of the accumulator was worth to tokens staked by that very instruction (early), and what it was worth to tokens just unstaked or behind which no stake account stands (stray). Paid, claimable now, and stray are never more than what was owed at the start, received and early, plus one lamport per advance; and less only by under a lamport per payment and per stake account. So, from a config's creation and with nothing early or stray, all holder rewards reach the stake accounts. They do not in general: the rewards of slashed tokens reach nobody.", "quantifier": "all environments, reachable worlds, configs, histories of any length with any mixture of instructions and outside events in which no keeper payment goes to the config itself; the lower bound for histories in which less than the accumulator's range accrues between two payments of an account", "why_tests_cant": "Tests check single harvests of one account with a fixed deposit. The statement sums over all stake accounts and over histories of any length in which deposits, withdrawals and slashes are interleaved with advances of the accumulator.", "anchors": ["program/src/processor/harvest_holder_rewards.rs", "program/src/processor/mod.rs", "program/src/processor/unstake_tokens.rs", "program/src/processor/mod.rs:process_slash_for_delegation"]}
{"id": "C95", "title": "The lamports of a config and its vault are accounted for, to the lamport", "statement": "From the moment a config is created, the lamports held by the config and its vault authority are exactly those they were created with, plus the lamports sent to either, plus the holder rewards the pool paid, minus what the stake accounts were paid. Hence they are, but for rounding (under a lamport per payment and claim of either kind, one per advance of the accumulator, and the accumulator's own remainder), the sum of: the starting balance, gifts to the vault, lamports that arrived at the config while no stake counted, everything the stake accounts can claim now, and holder rewards that went astray less those credited early. Nothing else is stuck in these accounts and nothing is missing.", "quantifier": "all environments, all reachable worlds in which a config is created, and all histories after it (any number of configs, stake accounts, calls and outside events) in which no stake authority and no keeper is the config or its vault authority; the upper bound also assumes that no accumulator difference passes 2^128", "why_tests_cant": "It adds up every lamport over histories of any length and any interleaving of all sixteen instructions with outside transfers; a test can follow the balances of one script only.", "anchors": ["program/src/processor/mod.rs", "program/src/processor/harvest_holder_rewards.rs", "program/src/processor/harvest_sol_staker_rewards.rs", "program/src/processor/unstake_tokens.rs"]}
{"id": "C96", "title": "When everybody can be paid, in terms of what was sent astray", "statement": "Take any history since a config was created in which nobody is paid into the config or its vault. If the starting balance, gifts to the vault, lamports that arrived while no stake counted and stray holder rewards cover the config's rent, what the vault authority still holds, one lamport per advance of the accumulator and what was credited early, then any queue of harvests goes through, in any order. If they fall short of rent, vault balance and early credits by more than the rounding, then a queue of all who are owed anything fails, in every order.", "quantifier": "all environments, reachable worlds, histories after a config's creation, balance sheets, queues of harvests and all their orders; the negative half with accumulator differences below 2^128", "why_tests_cant": "Whether the last in a queue is paid depends on all the lamports that came and went since the config was created; tests run one order of a few harvests on a fresh config.", "anchors": ["program/src/processor/mod.rs:harvest", "program/src/processor/harvest_validator_rewards.rs", "program/src/processor/harvest_sol_staker_rewards.rs"]}
