(** C23, C29, C42, C43: arithmetic. *)
From Verif Require Import Base Types Math Spec Arith.

(** ** C29: exact floor value or a clean overflow error. *)
Theorem C29_rewards_exact cur last bal : last < 2 ^ 128 ->
  floor_or_overflow (Z.to_N ((Z.of_N cur - Z.of_N last) mod 2 ^ 128) * bal) (10 ^ 18) (2 ^ 64)
    (calculate_eligible_rewards cur last bal).
Proof. exact (eligible_exact cur last bal). Qed.
Print Assumptions C29_rewards_exact.
(* half a token's worth of rate since the last harvest, and a wrapped accumulator *)
Example C29_rewards_case :
  calculate_eligible_rewards (7 * 10^17) (2 * 10^17) 1000 = Ok 500 /\
  calculate_eligible_rewards (10^18 - 1) (2^128 - 1) 3 = Ok 3 /\
  calculate_eligible_rewards (2^127) 0 (2^64 - 1) = Err ArithmeticOverflow.
Proof. vm_compute. auto. Qed.

Theorem C29_rate_exact d T : d < 2 ^ 64 ->
  calculate_stake_rewards_per_token d T = Ok (if T =? 0 then 0 else d * 10 ^ 18 / T).
Proof. exact (rpt_exact d T). Qed.
Print Assumptions C29_rate_exact.
Example C29_rate_case : calculate_stake_rewards_per_token 100 7 = Ok 14285714285714285714.
Proof. reflexivity. Qed.

Theorem C29_limit_exact l : l < 2 ^ 64 ->
  floor_or_overflow (13 * l) 10 (2 ^ 64) (calculate_maximum_stake l).
Proof. exact (maxstake_exact l). Qed.
Print Assumptions C29_limit_exact.
Example C29_limit_case : calculate_maximum_stake 5 = Ok 6 /\
  calculate_maximum_stake (2^64 - 1) = Err ArithmeticOverflow.
Proof. vm_compute. auto. Qed.

Theorem C29_limit_monotone l l' x x' : l <= l' -> calculate_maximum_stake l = Ok x ->
  calculate_maximum_stake l' = Ok x' -> x <= x'.
Proof. exact (maxstake_mono l l' x x'). Qed.
Print Assumptions C29_limit_monotone.

Theorem C29_deactivation_exact s b : s < 2 ^ 64 -> b <= 10000 ->
  max_deactivation_amount s b = Ok (s * b / 10000) /\ s * b / 10000 <= s.
Proof. exact (maxdeact_exact s b). Qed.
Print Assumptions C29_deactivation_exact.
Example C29_deactivation_case : max_deactivation_amount 999 500 = Ok 49.
Proof. reflexivity. Qed.

(** ** C43: wrap-around of the 128-bit accumulators is invisible.
    [A <= A'] are the accumulators as unbounded integers. *)
Theorem C43_wrap_exact A A' bal : A <= A' -> A' - A < 2 ^ 128 ->
  floor_or_overflow ((A' - A) * bal) (10 ^ 18) (2 ^ 64)
    (calculate_eligible_rewards (A' mod 2 ^ 128) (A mod 2 ^ 128) bal).
Proof. exact (wrap_exact A A' bal). Qed.
Print Assumptions C43_wrap_exact.
Example C43_case : let A := 2^128 - 10^17 in let A' := 2^128 + 4 * 10^17 in
  A <= A' /\ A' - A < 2^128 /\ calculate_eligible_rewards (A' mod 2^128) (A mod 2^128) 20 = Ok 10.
Proof. vm_compute. repeat split; discriminate. Qed.

(** ** C42: two harvests never pay more than one, and at most one lamport less. *)
Theorem C42_split_harvest A x y bal r : x + y < 2 ^ 128 ->
  calculate_eligible_rewards ((A + x + y) mod 2 ^ 128) (A mod 2 ^ 128) bal = Ok r ->
  exists r1 r2,
    calculate_eligible_rewards ((A + x) mod 2 ^ 128) (A mod 2 ^ 128) bal = Ok r1 /\
    calculate_eligible_rewards ((A + x + y) mod 2 ^ 128) ((A + x) mod 2 ^ 128) bal = Ok r2 /\
    r1 + r2 <= r /\ r <= r1 + r2 + 1.
Proof. exact (split_exact A x y bal r). Qed.
Print Assumptions C42_split_harvest.
Example C42_case :
  calculate_eligible_rewards (10^18) 0 3 = Ok 3 /\
  calculate_eligible_rewards (5 * 10^17) 0 3 = Ok 1 /\
  calculate_eligible_rewards (10^18) (5 * 10^17) 3 = Ok 1.
Proof. vm_compute. auto. Qed.

(** ** C23: [d] arriving lamports are shared in proportion to effective stake.
    In rationals: [d*eff/T - eff/10^18 - 1 < r <= d*eff/T]. *)
Theorem C23_share d T acc p eff r : d < 2 ^ 64 -> eff <= T -> 0 < T -> acc < 2 ^ 128 ->
  calculate_stake_rewards_per_token d T = Ok p ->
  calculate_eligible_rewards ((acc + p) mod 2 ^ 128) acc eff = Ok r ->
  r * T <= d * eff /\ d * eff * 10 ^ 18 < (r + 1) * T * 10 ^ 18 + eff * T.
Proof. exact (share_bounds d T acc p eff r). Qed.
Print Assumptions C23_share.
Theorem C23_shares_covered d T acc p effs : d < 2 ^ 64 -> T < 2 ^ 64 -> 0 < T -> acc < 2 ^ 128 ->
  fold_right N.add 0 effs <= T ->
  calculate_stake_rewards_per_token d T = Ok p ->
  exists rs,
    Forall2 (fun eff r => calculate_eligible_rewards ((acc + p) mod 2 ^ 128) acc eff = Ok r) effs rs /\
    fold_right N.add 0 rs <= d.
Proof. exact (share_sum d T acc p effs). Qed.
Print Assumptions C23_shares_covered.
Example C23_case : let acc := 2^128 - 1 in exists p,
  calculate_stake_rewards_per_token 100 7 = Ok p /\
  calculate_eligible_rewards ((acc + p) mod 2^128) acc 3 = Ok 42 /\
  calculate_eligible_rewards ((acc + p) mod 2^128) acc 4 = Ok 57.
Proof. exists 14285714285714285714. vm_compute. auto. Qed.
