{
 "claims": [
  {
   "property": "C01",
   "status": "proved",
   "theorems": [
    "C01_effective_total"
   ],
   "note": ""
  },
  {
   "property": "C02",
   "status": "proved",
   "theorems": [
    "C02_staker_effective"
   ],
   "note": ""
  },
  {
   "property": "C03",
   "status": "proved",
   "theorems": [
    "C03_validator_effective",
    "C03_exact_after_change",
    "C03_always_exact_refuted"
   ],
   "note": ""
  },
  {
   "property": "C04",
   "status": "proved",
   "theorems": [
    "C04_validator_total",
    "C04_undelegated"
   ],
   "note": ""
  },
  {
   "property": "C05",
   "status": "proved",
   "theorems": [
    "C05_staked_plus_slashed",
    "C05_backed"
   ],
   "note": ""
  },
  {
   "property": "C06",
   "status": "proved",
   "theorems": [
    "C06_unstake_exact"
   ],
   "note": ""
  },
  {
   "property": "C07",
   "status": "proved",
   "theorems": [
    "C07_stake_exact"
   ],
   "note": ""
  },
  {
   "property": "C08",
   "status": "proved",
   "theorems": [
    "C08_slash_exact"
   ],
   "note": ""
  },
  {
   "property": "C09",
   "status": "proved",
   "theorems": [
    "C09_funded_slash_succeeds",
    "C09_slash_needs_funded_vault",
    "C09_slash_refuted"
   ],
   "note": "The user's expectation (staked implies slashable) is refuted by a concrete reachable state; success iff the vault is funded is proved for all reachable states."
  },
  {
   "property": "C10",
   "status": "proved",
   "theorems": [
    "C10_unstake_limits"
   ],
   "note": ""
  },
  {
   "property": "C11",
   "status": "proved",
   "theorems": [
    "C11_window_limit"
   ],
   "note": "Over the histories of SpecWindow.window; the window's end must lie below 2^64 so that the saturating addition of the program does not bind."
  },
  {
   "property": "C12",
   "status": "proved",
   "theorems": [
    "C12_stake_reduction",
    "C12_stake_stays"
   ],
   "note": ""
  },
  {
   "property": "C13",
   "status": "proved",
   "theorems": [
    "C13_token_authorisation",
    "C13_owner_signed",
    "C13_supply"
   ],
   "note": ""
  },
  {
   "property": "C14",
   "status": "proved",
   "theorems": [
    "C14_config_changes",
    "C14_minimum_changes",
    "C14_unset_forever"
   ],
   "note": ""
  },
  {
   "property": "C15",
   "status": "proved",
   "theorems": [
    "C15_config_identity",
    "C15_validator_identity",
    "C15_staker_identity",
    "C15_no_reinitialisation"
   ],
   "note": ""
  },
  {
   "property": "C16",
   "status": "proved",
   "theorems": [
    "C16_bps",
    "C16_limit_computable"
   ],
   "note": ""
  },
  {
   "property": "C17",
   "status": "proved",
   "theorems": [
    "C17_lamports_recorded",
    "C17_sync_never_fails"
   ],
   "note": ""
  },
  {
   "property": "C18",
   "status": "proved",
   "theorems": [
    "C18_solvency",
    "C18_one_lamport_per_settlement",
    "C18_new_claims_covered"
   ],
   "note": "The allowance counts, per settlement of the vault authority, the rounding lost (less than one lamport each); keeper of synchronising harvests is not the config account (see C37)."
  },
  {
   "property": "C19",
   "status": "proved",
   "theorems": [
    "C19_exact_solvency_refuted"
   ],
   "note": "The exact property is false: refuted by a concrete reachable history; C18 is the version with the rounding allowance."
  },
  {
   "property": "C20",
   "status": "proved",
   "theorems": [
    "C20_validator_harvest_twice",
    "C20_staker_harvest_twice"
   ],
   "note": "SOL staker harvest: the second call's view agrees with what the first recorded; keeper is not the config account."
  },
  {
   "property": "C21",
   "status": "proved",
   "theorems": [
    "C21_validator_harvest_leaves_others",
    "C21_staker_harvest_leaves_others",
    "C21_staking_claims_kept"
   ],
   "note": "A synchronising harvest also settles the validators the stake leaves and joins; all other accounts untouched. Keeper is not the config account."
  },
  {
   "property": "C22",
   "status": "proved",
   "theorems": [
    "C22_no_claim_after_staking",
    "C22_no_claim_after_move"
   ],
   "note": ""
  },
  {
   "property": "C23",
   "status": "proved",
   "theorems": [
    "C23_share",
    "C23_shares_covered"
   ],
   "note": "share of each arrival, and sum of shares over any list of accounts"
  },
  {
   "property": "C24",
   "status": "proved",
   "theorems": [
    "C24_validator_harvest_pays",
    "C24_staker_harvest_pays",
    "C24_sync_harvest_pays",
    "C24_staking_pays",
    "C24_unstaking_pays",
    "C24_slashing_pays",
    "C24_override_pays",
    "C24_move_pays"
   ],
   "note": "Harvests, stake, unstake, slash, override and move; the synchronising harvest with keeper different from the config account."
  },
  {
   "property": "C25",
   "status": "proved",
   "theorems": [
    "C25_no_change_no_keeper",
    "C25_participating_validator",
    "C25_keeper_refuted"
   ],
   "note": "The plain expectation is refuted by a concrete reachable history; the two conditions under which it holds are proved for all reachable states."
  },
  {
   "property": "C26",
   "status": "proved",
   "theorems": [
    "C26_holder_harvest"
   ],
   "note": ""
  },
  {
   "property": "C27",
   "status": "proved",
   "theorems": [
    "C27_round_trip",
    "C27_injective",
    "C27_accepts_exactly",
    "C27_rejects_cleanly",
    "C27_never_panics",
    "C27_packed_documented",
    "C27_unambiguous"
   ],
   "note": "acceptance is stated against an independent inductive description of the wire format"
  },
  {
   "property": "C28",
   "status": "proved",
   "theorems": [
    "C28_config_round_trip",
    "C28_validator_round_trip",
    "C28_staker_round_trip",
    "C28_accepts_exactly",
    "C28_handlers_read_bytes",
    "C28_one_type",
    "C28_discriminators",
    "C28_zeroed_refused",
    "C28_injective"
   ],
   "note": "byte level; the typed readers used by the handlers are proved to agree with it"
  },
  {
   "property": "C29",
   "status": "proved",
   "theorems": [
    "C29_rewards_exact",
    "C29_rate_exact",
    "C29_limit_exact",
    "C29_limit_monotone",
    "C29_deactivation_exact"
   ],
   "note": "also covers the deactivation cap"
  },
  {
   "property": "C30",
   "status": "proved",
   "theorems": [
    "C30_duna_signed"
   ],
   "note": ""
  },
  {
   "property": "C31",
   "status": "proved",
   "theorems": [
    "C31_staker_authority"
   ],
   "note": ""
  },
  {
   "property": "C32",
   "status": "proved",
   "theorems": [
    "C32_validator_created",
    "C32_authority_changes",
    "C32_sync_changes_nothing_else"
   ],
   "note": ""
  },
  {
   "property": "C33",
   "status": "proved",
   "theorems": [
    "C33_unstake_succeeds"
   ],
   "note": "Hypotheses are the record SpecLive.good_unstake; the reward part must be affordable (see C18/C19)."
  },
  {
   "property": "C34",
   "status": "proved",
   "theorems": [
    "C34_configs_isolated"
   ],
   "note": ""
  },
  {
   "property": "C35",
   "status": "proved",
   "theorems": [
    "C35_rent_exempt"
   ],
   "note": ""
  },
  {
   "property": "C36",
   "status": "proved",
   "theorems": [
    "C36_effective_in_range",
    "C36_totals_in_range",
    "C36_sync_harvest_succeeds"
   ],
   "note": "Success of the synchronising harvest under SpecLive.good_harvest_sol."
  },
  {
   "property": "C37",
   "status": "proved",
   "theorems": [
    "C37_any_keeper_refuted",
    "C37_any_authority"
   ],
   "note": "False for keepers: refuted by a concrete reachable history with keeper = previous validator authority = config; holds for every choice of stake authorities otherwise."
  },
  {
   "property": "C38",
   "status": "proved",
   "theorems": [
    "C38_top_up_succeeds",
    "C38_own_wallet_needs_nothing_pending",
    "C38_top_up_refuted"
   ],
   "note": "Topping up from the own wallet while rewards are pending is refuted by a concrete reachable state; all other cases proved to succeed."
  },
  {
   "property": "C39",
   "status": "proved",
   "theorems": [
    "C39_holder_claim_after_staking",
    "C39_no_retroactive_holder_claim_refuted"
   ],
   "note": "The plain property is false and refuted by a concrete history; what holds exactly (claim = advance during the deposit, zero if the accumulator does not advance) is proved for all states."
  },
  {
   "property": "C40",
   "status": "proved",
   "theorems": [
    "C40_permissionless_harmless"
   ],
   "note": ""
  },
  {
   "property": "C41",
   "status": "proved",
   "theorems": [
    "C41_move_exact"
   ],
   "note": ""
  },
  {
   "property": "C42",
   "status": "proved",
   "theorems": [
    "C42_split_harvest"
   ],
   "note": ""
  },
  {
   "property": "C43",
   "status": "proved",
   "theorems": [
    "C43_wrap_exact"
   ],
   "note": ""
  },
  {
   "property": "C44",
   "status": "proved",
   "theorems": [
    "C44_idle_lamports_distributed_to_nobody",
    "C44_idle_claims_zero",
    "C44_seen"
   ],
   "note": ""
  },
  {
   "property": "C45",
   "status": "proved",
   "theorems": [
    "C45_validator_home",
    "C45_staker_home",
    "C45_one_validator_stake",
    "C45_one_staker_stake"
   ],
   "note": ""
  },
  {
   "property": "C46",
   "status": "proved",
   "theorems": [
    "C46_stake_lamports"
   ],
   "note": ""
  },
  {
   "property": "C47",
   "status": "proved",
   "theorems": [
    "C47_move_succeeds"
   ],
   "note": "Hypotheses are the record SpecLive.good_move."
  },
  {
   "property": "C48",
   "status": "proved",
   "theorems": [
    "C48_only_declared_change",
    "C48_declared_suffice",
    "C48_validator_stake_refuted",
    "C48_move_refuted"
   ],
   "note": "the full claim without the two exceptions is refuted by the two _refuted theorems"
  },
  {
   "property": "C49",
   "status": "proved",
   "theorems": [
    "C49_declared_signers_sign",
    "C49_other_signatures_irrelevant"
   ],
   "note": ""
  },
  {
   "property": "C50",
   "status": "proved",
   "theorems": [
    "C50_entry_is_step",
    "C50_entry_complete",
    "C50_account_count"
   ],
   "note": ""
  },
  {
   "property": "C51",
   "status": "proved",
   "theorems": [
    "C51_update_config",
    "C51_set_authority",
    "C51_sync_authority",
    "C51_init_config",
    "C51_init_validator_stake",
    "C51_init_sol_staker_stake"
   ],
   "note": "Six equivalences between success (runtime checks included) and the conditions of SpecExact.v; cases show both a satisfied and, where interesting, a violated instance."
  },
  {
   "property": "C52",
   "status": "proved",
   "theorems": [
    "C52_harvest_validator_succeeds",
    "C52_override_succeeds",
    "C52_harvest_holder_succeeds"
   ],
   "note": "Three progress theorems in the style of C33/C36/C47, for all reachable worlds."
  },
  {
   "property": "C53",
   "status": "proved",
   "theorems": [
    "C53_panics_only",
    "C53_entry_point",
    "C53_unstake_aborts_refuted",
    "C53_success_affordable",
    "C53_gifts_do_not_help_refuted",
    "C53_sync_authority_aborts_refuted"
   ],
   "note": "C53_panics_only excludes instructions that pay the config itself; the unrestricted 'no instruction aborts' is refuted by the three _refuted theorems."
  },
  {
   "property": "C54",
   "status": "proved",
   "theorems": [
    "C54_accounts_authentic"
   ],
   "note": "Necessary conditions of all ten settling or token-moving instructions; the other six have exact conditions in C51."
  },
  {
   "property": "C55",
   "status": "proved",
   "theorems": [
    "C55_harvest_validator",
    "C55_override",
    "C55_move",
    "C55_harvest_holder"
   ],
   "note": "Equivalences; side conditions are writable accounts, authority other than the config, total lamports below 2^64, and for the holder harvest a rent-exempt pool."
  },
  {
   "property": "C56",
   "status": "proved",
   "theorems": [
    "C56_addresses_distinct",
    "C56_documents_distinct"
   ],
   "note": "The hash is a parameter; hash_ok assumes it injective, keys 32 bytes, and a usable bump for every seed list. A concrete such function is given."
  },
  {
   "property": "C57",
   "status": "proved",
   "theorems": [
    "C57_found_is_canonical",
    "C57_signer_seeds",
    "C57_vault_created"
   ],
   "note": ""
  },
  {
   "property": "C58",
   "status": "proved",
   "theorems": [
    "C58_rust_addresses",
    "C58_js_vault_refuted"
   ],
   "note": "Rust client proved; for the JavaScript findVaultPda the claim is refuted for all inputs: its address is no vault authority and no instruction accepts it."
  },
  {
   "property": "C59",
   "status": "proved",
   "theorems": [
    "C59_client_calls",
    "C59_client_privileges"
   ],
   "note": "Arguments within their Rust types; a keeper equal to the program id cannot be expressed on the wire."
  },
  {
   "property": "C60",
   "status": "proved",
   "theorems": [
    "C60_config_reader",
    "C60_validator_reader",
    "C60_staker_reader",
    "C60_reader_checks_kind_refuted",
    "C60_nullable"
   ],
   "note": "The last clause (kinds told apart) is refuted: every SOL staker stake also reads as a validator stake."
  },
  {
   "property": "C61",
   "status": "proved",
   "theorems": [
    "C61_error_codes"
   ],
   "note": ""
  },
  {
   "property": "C62",
   "status": "proved",
   "theorems": [
    "C62_delegation_checked",
    "C62_delegation_panics"
   ],
   "note": ""
  },
  {
   "property": "C63",
   "status": "proved",
   "theorems": [
    "C63_only_if",
    "C63_exact",
    "C63_failure_has_reason"
   ],
   "note": "Equivalence; side conditions are writable accounts, total lamports below 2^64, and that the authority is not the config, the source is neither vault nor pool token account, the destination is not the pool token account."
  },
  {
   "property": "C64",
   "status": "proved",
   "theorems": [
    "C64_only_if",
    "C64_exact",
    "C64_unchanged"
   ],
   "note": "Equivalence; side conditions are that the accounts written to are writable, no recipient is the config, total lamports below 2^64."
  },
  {
   "property": "C65",
   "status": "proved",
   "theorems": [
    "C65_js_builds",
    "C65_js_calls",
    "C65_js_privileges",
    "C65_js_hash"
   ],
   "note": "Also proved: a hash of another length is silently cut or padded with zeros."
  },
  {
   "property": "C66",
   "status": "proved",
   "theorems": [
    "C66_identify",
    "C66_parse_agrees",
    "C66_parse_only",
    "C66_round_trip",
    "C66_parser_checks_kind_refuted"
   ],
   "note": "The last clause is refuted: parsers do not compare the discriminator and ignore trailing bytes."
  },
  {
   "property": "C67",
   "status": "proved",
   "theorems": [
    "C67_js_config_reader",
    "C67_js_config_faithful",
    "C67_js_stake_readers",
    "C67_js_reader_checks_kind_refuted"
   ],
   "note": "The last clause is refuted, as for C60."
  },
  {
   "property": "C68",
   "status": "proved",
   "theorems": [
    "C68_nullable",
    "C68_codecs_combine_refuted"
   ],
   "note": "The last clause is refuted: the NullableU64 decoder declares 32 bytes, its encoder 8, so getNullableU64Codec cannot be built."
  },
  {
   "property": "C69",
   "status": "proved",
   "theorems": [
    "C69_js_errors"
   ],
   "note": ""
  },
  {
   "property": "C70",
   "status": "proved",
   "theorems": [
    "C70_local",
    "C70_frame"
   ],
   "note": "The context (signers, writable flags, clock, stake view, holder-pool accumulator) is fixed; the last two stand for accounts of other programs."
  },
  {
   "property": "C71",
   "status": "proved",
   "theorems": [
    "C71_commute",
    "C71_any_order"
   ],
   "note": ""
  },
  {
   "property": "C72",
   "status": "proved",
   "theorems": [
    "C72_down_to_dust",
    "C72_full_exit",
    "C72_dust_stuck",
    "C72_never_empty"
   ],
   "note": "The down-to-dust clause assumes the vault's holder rewards are harvested up to date and the token accounts have room for the stake; nobody else acts between the unstakes."
  },
  {
   "property": "C73",
   "status": "proved",
   "theorems": [
    "C73_errors_true"
   ],
   "note": "SpecError.reason lists, for each instruction and error, what must hold. Nothing is claimed for errors about contents that cannot be read, numbers that do not fit, and failures of called programs and of the runtime (SpecError.unspecific)."
  },
  {
   "property": "C74",
   "status": "proved",
   "theorems": [
    "C74_at_most_fair",
    "C74_at_least_fair",
    "C74_lifetime"
   ],
   "note": "Payments to the stake's authority are those of C24. Stated in exact fractions (Q)."
  },
  {
   "property": "C75",
   "status": "proved",
   "theorems": [
    "C75_chain",
    "C75_transactions",
    "C75_transaction",
    "C75_survive"
   ],
   "note": "For environments where every rent minimum is positive; other programs are assumed not to leave an initialised token or holder account without lamports."
  },
  {
   "property": "C76",
   "status": "proved",
   "theorems": [
    "C76_unfunded",
    "C76_for_ever",
    "C76_nothing_collected",
    "C76_harvest_blocked",
    "C76_funded",
    "C76_vault_authority_refuted"
   ],
   "note": "The expectation as first stated is refuted (`C76_vault_authority_refuted`); what holds with and without lamports is proved."
  },
  {
   "property": "C77",
   "status": "proved",
   "theorems": [
    "C77_refused_when",
    "C77_accepted",
    "C77_short_accounts",
    "C77_no_penalty",
    "C77_slash_refused_refuted"
   ],
   "note": "For settled worlds (as C75 gives) whose rewards pool accounts have 64 bytes. That an authorised slash always goes through is refuted (`C77_slash_refused_refuted`)."
  },
  {
   "property": "C78",
   "status": "proved",
   "theorems": [
    "C78_instruction_data",
    "C78_instruction_accounts",
    "C78_instructions_run",
    "C78_privileges",
    "C78_nothing_else",
    "C78_config_data",
    "C78_validator_data",
    "C78_staker_data",
    "C78_self_contained_refuted",
    "C78_errors"
   ],
   "note": "idl.json is transcribed into Idl.v by a script; the two undefined types are taken as the client generator supplies them."
  },
  {
   "property": "C79",
   "status": "proved",
   "theorems": [
    "C79_at_most",
    "C79_at_least",
    "C79_lifetime"
   ],
   "note": "An advance made by the account's own staking counts the tokens just staked (C39). Keeper payments to the config itself are excluded, as in C74."
  },
  {
   "property": "C80",
   "status": "proved",
   "theorems": [
    "C80_builder",
    "C80_builder_runs",
    "C80_missing",
    "C80_cpi",
    "C80_remaining_refuted",
    "C80_cpi_runs",
    "C80_cpi_missing"
   ],
   "note": "The sixteen files are instances of one template; a script transcribes what differs and checks that setters and fields correspond."
  },
  {
   "property": "C81",
   "status": "proved",
   "theorems": [
    "C81_step",
    "C81_refused",
    "C81_history",
    "C81_kept",
    "C81_alone"
   ],
   "note": "C81_step: one step. C81_refused: what the book refuses. C81_history, C81_kept: the book kept from the instructions is the one shown. C81_alone: the book depends on the operations on the config alone. The machine is SpecBook.v."
  },
  {
   "property": "C82",
   "status": "proved",
   "theorems": [
    "C82_swap",
    "C82_any_order",
    "C82_all_or_none"
   ],
   "note": "C82_swap: two harvests. C82_any_order: any permutation of any list. C82_all_or_none: success does not depend on the order. C71 does not apply since all of them write the config. A harvest that also re-syncs a staker is left out."
  },
  {
   "property": "C83",
   "status": "proved",
   "theorems": [
    "C83_overflow_reasons",
    "C83_overflow_in_practice"
   ],
   "note": "Every checked operation of every handler; the causes are listed per instruction in SpecOver.v (overflows). The rewards and token programs' own arithmetic reports other errors and is not part of this."
  },
  {
   "property": "C84",
   "status": "proved",
   "theorems": [
    "C84_queue_goes_through",
    "C84_everybody_is_paid",
    "C84_run_on_the_config"
   ],
   "note": "Exact condition for a whole row of harvests, exact payouts, and (with C18) a history-level sufficient condition. Authorities equal to the config address are excluded. The stuck case shows the C39 effect locking the queue."
  },
  {
   "property": "C85",
   "status": "proved",
   "theorems": [
    "C85_effective",
    "C85_rewards",
    "C85_split_costs_dust"
   ],
   "note": "C85_effective and C85_rewards give the two upper bounds from the cap invariant (C02) and the superadditivity of the rounded-down products; C85_split_costs_dust gives the converse up to two lamports a piece. About what is owed at one moment: the pieces must have the same marks, as after a move or a common harvest."
  },
  {
   "property": "C86",
   "status": "proved",
   "theorems": [
    "C86_limits_refuted",
    "C86_validators_do_not_track_tokens",
    "C86_unstake_is_not_permissionless",
    "C86_cooldown_refuted",
    "C86_anybody_creates",
    "C86_config_authority_is_limited"
   ],
   "note": "C86_limits_refuted and C86_cooldown_refuted give reachable counterexamples to the documented limits and to the documented cooldown; the other theorems are for all executions."
  },
  {
   "property": "C87",
   "status": "proved",
   "theorems": [
    "C87_no_padding",
    "C87_layout",
    "C87_bytes",
    "C87_shape",
    "C87_fixed_bytes",
    "C87_in_place",
    "C87_nothing_superfluous"
   ],
   "note": "Frame condition at byte granularity for all sixteen instructions, with the field offsets computed from repr(C) size and alignment rules and the list of written fields stated without reference to the handlers; C87_nothing_superfluous shows the lists are minimal."
  },
  {
   "property": "C88",
   "status": "proved",
   "theorems": [
    "C88_validator_address",
    "C88_staker_address",
    "C88_override_address",
    "C88_waiting",
    "C88_custody",
    "C88_vault_in_custody",
    "C88_locked",
    "C88_validator_creatable",
    "C88_staker_creatable",
    "C88_first_keeps",
    "C88_authority_follows_refuted"
   ],
   "note": "Theorems over all histories. C88_authority_follows_refuted is a finding: a harvest told of a new withdrawer by the stake view still pays the first one. C88_locked_case: one token sent to the prepared vault makes InitializeConfig fail."
  },
  {
   "property": "C89",
   "status": "proved",
   "theorems": [
    "C89_errors_cause"
   ],
   "note": "Completes C73 (the program's own errors) and C83: together they describe every error the model can return. The examples run one refused instruction for each of seven errors."
  },
  {
   "property": "C90",
   "status": "proved",
   "theorems": [
    "C90_callees_change_marked",
    "C90_callees_see_named",
    "C90_calls_permitted",
    "C90_declared_executes"
   ],
   "note": "The handlers do not look at the accounts named as system and rewards programs; the examples show that a handler's success does not suffice without the rewards program, or with the vault read-only. The privileges of the called instructions come from crates outside /repo."
  },
  {
   "property": "C91",
   "status": "proved",
   "theorems": [
    "C91_no_more",
    "C91_no_less",
    "C91_lifetime",
    "C91_every_history"
   ],
   "note": "Conservation for all stake accounts together (C74 is about one account, C18 bounds the claims from above). Lamports that arrive while no stake is effective are distributed to nobody and not counted as arrived. The lower bound assumes the 128-bit accumulator does not advance by its whole range between two payments of an account."
  },
  {
   "property": "C92",
   "status": "proved",
   "theorems": [
    "C92_run_on_the_tokens",
    "C92_all_out",
    "C92_after_any_history"
   ],
   "note": "PropBank.v. The conditions on each unstake are those of C33; that the pool has no new rewards is assumed as in C72, since new ones change the claims of those still waiting."
  },
  {
   "property": "C93",
   "status": "proved",
   "theorems": [
    "C93_tokens_conserved",
    "C93_delegate_draws",
    "C93_within_allowance"
   ],
   "note": "Tokens in existence are summed over all accounts owned by the token program; rewards and token program are modelled (External.v)."
  },
  {
   "property": "C94",
   "status": "proved",
   "theorems": [
    "C94_no_more",
    "C94_no_less",
    "C94_every_history",
    "C94_lifetime",
    "C94_all_of_it",
    "C94_reach_the_stakers_refuted"
   ],
   "note": "The plain statement (all holder rewards reach the stake accounts) is refuted by C94_reach_the_stakers_refuted: after a slash the vault's deposit still counts the slashed tokens. Proved instead: exact books with that share and the early share as separate columns. The lamports of the received column are those of C24 and C26."
  },
  {
   "property": "C95",
   "status": "proved",
   "theorems": [
    "C95_exact",
    "C95_enough",
    "C95_nothing_else",
    "C95_every_history"
   ],
   "note": "C95_exact is the identity to the lamport for any stretch of history; C95_enough and C95_nothing_else bound the funds from below and above over the life of a config; C95_every_history shows that each history with nobody paid into the config or vault has such a balance sheet. The lamports that arrived while no stake counted, the gifts and the stray holder rewards are therefore never shared out; only early credits (C94) are paid from them."
  },
  {
   "property": "C96",
   "status": "proved",
   "theorems": [
    "C96_everybody_can_be_paid",
    "C96_somebody_goes_unpaid"
   ],
   "note": "C96_everybody_can_be_paid and C96_somebody_goes_unpaid; the gap between the two conditions is the rounding of C95. In the second example the cause of the shortfall is the early credit of C39."
  }
 ]
}