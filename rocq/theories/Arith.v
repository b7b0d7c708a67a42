(** Lemmas about the arithmetic functions. *)
From Verif Require Import Base Types Math Spec WorldLemmas.

Lemma wsub128_Z a b : b < U128 -> Z.of_N (wsub128 a b) = ((Z.of_N a - Z.of_N b) mod 2 ^ 128)%Z.
Proof.
  intros H. unfold wsub128. rewrite (N.mod_small b) by auto.
  rewrite N2Z.inj_mod, N2Z.inj_sub, N2Z.inj_add by lia.
  change (Z.of_N U128) with (2^128)%Z.
  replace (Z.of_N a + 2 ^ 128 - Z.of_N b)%Z with (Z.of_N a - Z.of_N b + 1 * 2 ^ 128)%Z by lia.
  now rewrite Z.mod_add by lia.
Qed.
Lemma wadd128_lt a b : wadd128 a b < U128.
Proof. unfold wadd128. apply N.mod_lt. lia. Qed.
Lemma wsub128_lt a b : wsub128 a b < U128.
Proof. unfold wsub128. apply N.mod_lt. lia. Qed.
Lemma wsub_wadd a x : a < U128 -> x < U128 -> wsub128 (wadd128 a x) a = x.
Proof.
  intros A X. apply N2Z.inj. rewrite wsub128_Z by auto. unfold wadd128.
  rewrite N2Z.inj_mod, N2Z.inj_add. change (Z.of_N U128) with (2^128)%Z.
  rewrite Zminus_mod_idemp_l. replace (Z.of_N a + Z.of_N x - Z.of_N a)%Z with (Z.of_N x) by lia.
  apply Z.mod_small. change (2^128)%Z with (Z.of_N U128). lia.
Qed.
Lemma wsub_same a : a < U128 -> wsub128 a a = 0.
Proof. intros A. apply N2Z.inj. rewrite wsub128_Z by auto. now rewrite Z.sub_diag. Qed.
(** Unbounded accumulators *)
Lemma wsub_mod a b : b <= a -> a - b < U128 -> wsub128 (a mod U128) (b mod U128) = a - b.
Proof.
  intros L H. apply N2Z.inj. rewrite wsub128_Z by (apply N.mod_lt; lia).
  rewrite !N2Z.inj_mod, N2Z.inj_sub by auto. change (Z.of_N U128) with (2^128)%Z.
  rewrite <- Zminus_mod. apply Z.mod_small. change (2^128)%Z with (Z.of_N U128). lia.
Qed.
Lemma wadd_mod a x : wadd128 (a mod U128) x = (a + x) mod U128.
Proof. unfold wadd128. now rewrite N.add_mod_idemp_l by lia. Qed.
Lemma mod_small128 a : a < U128 -> a mod U128 = a.
Proof. apply N.mod_small. Qed.

Lemma mul128_small a b : a * b < U128 -> mul128 a b = Ok (a * b).
Proof. intros H. unfold mul128. now rewrite (proj2 (N.ltb_lt _ _) H). Qed.
Lemma mul128_big a b : U128 <= a * b -> mul128 a b = Err ArithmeticOverflow.
Proof. intros H. unfold mul128. now rewrite (proj2 (N.ltb_ge _ _) H). Qed.
Lemma to64_small a : a < U64 -> to64 a = Ok a.
Proof. intros H. unfold to64. now rewrite (proj2 (N.ltb_lt _ _) H). Qed.
Lemma to64_big a : U64 <= a -> to64 a = Err ArithmeticOverflow.
Proof. intros H. unfold to64. now rewrite (proj2 (N.ltb_ge _ _) H). Qed.

(** The reward for a rate difference. *)
Lemma eligible_eq cur last bal :
  calculate_eligible_rewards cur last bal =
  if wsub128 cur last * bal / SCALE <? U64 then Ok (wsub128 cur last * bal / SCALE)
  else Err ArithmeticOverflow.
Proof.
  unfold calculate_eligible_rewards. cbv zeta. set (m := wsub128 cur last).
  destruct (N.eqb_spec m 0) as [->|NZ]; [reflexivity|].
  destruct (N.ltb_spec (m * bal) U128) as [L|L].
  - rewrite mul128_small by auto. cbn [bind]. reflexivity.
  - rewrite mul128_big by auto. cbn [bind].
    assert (U64 <= m * bal / SCALE).
    { transitivity (U128 / SCALE); [now vm_compute|]. apply N.div_le_mono; lia. }
    now rewrite (proj2 (N.ltb_ge _ _) H).
Qed.
Lemma eligible_ok cur last bal r : calculate_eligible_rewards cur last bal = Ok r ->
  r = wsub128 cur last * bal / SCALE /\ r < U64.
Proof.
  rewrite eligible_eq. destruct (N.ltb_spec (wsub128 cur last * bal / SCALE) U64); intros [= <-]. auto.
Qed.
Lemma rpt_eq d T : d < U64 -> T <> 0 -> calculate_stake_rewards_per_token d T = Ok (d * SCALE / T).
Proof.
  intros D H. unfold calculate_stake_rewards_per_token. rewrite (proj2 (N.eqb_neq _ _) H).
  rewrite mul128_small by lia. reflexivity.
Qed.
Lemma rpt_zero d : calculate_stake_rewards_per_token d 0 = Ok 0.
Proof. reflexivity. Qed.
Lemma rpt_ok d T p : calculate_stake_rewards_per_token d T = Ok p ->
  (T = 0 /\ p = 0) \/ (T <> 0 /\ p = d * SCALE / T /\ d * SCALE < U128).
Proof.
  unfold calculate_stake_rewards_per_token. destruct (N.eqb_spec T 0); intros H.
  - injection H as <-. auto.
  - stepn H x E. apply mul128_ok in E as [-> L]. injection H as <-. auto.
Qed.
Lemma rpt_lt d T p : d < U64 -> calculate_stake_rewards_per_token d T = Ok p -> p * T <= d * SCALE /\ p < U128.
Proof.
  intros D H. apply rpt_ok in H as [[-> ->]|(NZ & -> & L)].
  - split; lia.
  - pose proof (N.mul_div_le (d * SCALE) T NZ). split; [lia|].
    apply N.le_lt_trans with (d * SCALE); [|lia]. apply N.div_le_upper_bound; nia.
Qed.
Lemma maxstake_eq l : l < U64 -> calculate_maximum_stake l =
  if 13 * l / 10 <? U64 then Ok (13 * l / 10) else Err ArithmeticOverflow.
Proof.
  intros H. unfold calculate_maximum_stake, STAKE_FACTOR, STAKE_SCALING_FACTOR.
  destruct (N.eqb_spec l 0) as [->|NZ]; [reflexivity|].
  rewrite mul128_small by lia. cbn [bind]. unfold to64. now rewrite (N.mul_comm l 13).
Qed.
Lemma maxstake_ok l x : calculate_maximum_stake l = Ok x -> x = 13 * l / 10.
Proof.
  unfold calculate_maximum_stake, STAKE_FACTOR, STAKE_SCALING_FACTOR.
  destruct (N.eqb_spec l 0) as [->|NZ]; intros H.
  - now injection H as <-.
  - stepn H p E. apply mul128_ok in E as [-> _]. apply to64_ok in H as [-> _]. now rewrite (N.mul_comm l 13).
Qed.
Lemma maxdeact_eq s b : s < U64 -> b <= MAX_BPS -> max_deactivation_amount s b = Ok (s * b / MAX_BPS).
Proof.
  intros H B. unfold max_deactivation_amount. rewrite mul128_small by nia. cbn [bind].
  rewrite to64_small; auto. apply N.le_lt_trans with s; [|auto]. apply N.div_le_upper_bound; nia.
Qed.
Lemma maxdeact_ok s b m : max_deactivation_amount s b = Ok m -> m = s * b / MAX_BPS.
Proof.
  unfold max_deactivation_amount. intros H. stepn H p E. apply mul128_ok in E as [-> _].
  now apply to64_ok in H as [-> _].
Qed.

(** ** Floors *)
Lemma div_split x y b : x * b / SCALE + y * b / SCALE <= (x + y) * b / SCALE /\
  (x + y) * b / SCALE <= x * b / SCALE + y * b / SCALE + 1.
Proof.
  rewrite N.mul_add_distr_r. generalize (x * b) (y * b). clear. intros p q.
  pose proof (N.div_mod p SCALE ltac:(lia)). pose proof (N.mod_lt p SCALE ltac:(lia)).
  pose proof (N.div_mod q SCALE ltac:(lia)). pose proof (N.mod_lt q SCALE ltac:(lia)).
  pose proof (N.div_mod (p + q) SCALE ltac:(lia)). pose proof (N.mod_lt (p + q) SCALE ltac:(lia)).
  remember (p / SCALE) as a. remember (q / SCALE) as c. remember ((p + q) / SCALE) as f.
  remember (p mod SCALE) as a'. remember (q mod SCALE) as c'. remember ((p + q) mod SCALE) as f'.
  lia.
Qed.

(** ** Property proofs *)
Lemma eligible_exact cur last bal :
  last < U128 ->
  floor_or_overflow (Z.to_N ((Z.of_N cur - Z.of_N last) mod 2 ^ 128) * bal) (10 ^ 18) (2 ^ 64)
    (calculate_eligible_rewards cur last bal).
Proof.
  intros H. rewrite <- wsub128_Z, N2Z.id by auto. change (10^18) with SCALE. change (2^64) with U64.
  rewrite eligible_eq. split; intros L.
  - now rewrite (proj2 (N.ltb_lt _ _) L).
  - now rewrite (proj2 (N.ltb_ge _ _) L).
Qed.
Lemma rpt_exact d T : d < U64 ->
  calculate_stake_rewards_per_token d T = Ok (if T =? 0 then 0 else d * 10 ^ 18 / T).
Proof.
  intros H. destruct (N.eqb_spec T 0) as [->|NZ]; [reflexivity|]. now apply rpt_eq.
Qed.
Lemma maxstake_exact l : l < U64 -> floor_or_overflow (13 * l) 10 (2 ^ 64) (calculate_maximum_stake l).
Proof.
  intros H. change (2^64) with U64. rewrite maxstake_eq by auto. split; intros L.
  - now rewrite (proj2 (N.ltb_lt _ _) L).
  - now rewrite (proj2 (N.ltb_ge _ _) L).
Qed.
Lemma maxstake_mono l l' x x' : l <= l' -> calculate_maximum_stake l = Ok x ->
  calculate_maximum_stake l' = Ok x' -> x <= x'.
Proof. intros L H H'. apply maxstake_ok in H as ->. apply maxstake_ok in H' as ->. apply N.div_le_mono; lia. Qed.
Lemma maxdeact_exact s b : s < U64 -> b <= 10000 ->
  max_deactivation_amount s b = Ok (s * b / 10000) /\ s * b / 10000 <= s.
Proof.
  intros H B. split; [now apply maxdeact_eq|]. apply N.div_le_upper_bound; nia.
Qed.

Lemma wrap_exact A A' bal : A <= A' -> A' - A < 2 ^ 128 ->
  floor_or_overflow ((A' - A) * bal) (10 ^ 18) (2 ^ 64)
    (calculate_eligible_rewards (A' mod 2 ^ 128) (A mod 2 ^ 128) bal).
Proof.
  change (2^128) with U128. change (10^18) with SCALE. change (2^64) with U64.
  intros L H. rewrite eligible_eq, wsub_mod by auto. split; intros X.
  - now rewrite (proj2 (N.ltb_lt _ _) X).
  - now rewrite (proj2 (N.ltb_ge _ _) X).
Qed.

Lemma split_exact A x y bal r : x + y < 2 ^ 128 ->
  calculate_eligible_rewards ((A + x + y) mod 2 ^ 128) (A mod 2 ^ 128) bal = Ok r ->
  exists r1 r2,
    calculate_eligible_rewards ((A + x) mod 2 ^ 128) (A mod 2 ^ 128) bal = Ok r1 /\
    calculate_eligible_rewards ((A + x + y) mod 2 ^ 128) ((A + x) mod 2 ^ 128) bal = Ok r2 /\
    r1 + r2 <= r /\ r <= r1 + r2 + 1.
Proof.
  change (2^128) with U128. intros H R.
  rewrite eligible_eq, wsub_mod in R by lia. replace (A + x + y - A) with (x + y) in R by lia.
  destruct (N.ltb_spec ((x + y) * bal / SCALE) U64) as [L|L]; [|discriminate]. injection R as <-.
  destruct (div_split x y bal) as [S1 S2].
  exists (x * bal / SCALE), (y * bal / SCALE).
  rewrite !eligible_eq, !wsub_mod by lia. replace (A + x - A) with x by lia.
  replace (A + x + y - (A + x)) with y by lia.
  revert S1 S2 L. generalize (x * bal / SCALE) (y * bal / SCALE) ((x + y) * bal / SCALE). intros a b c S1 S2 L.
  assert (a < U64) as L1 by lia. assert (b < U64) as L2 by lia.
  rewrite (proj2 (N.ltb_lt _ _) L1), (proj2 (N.ltb_lt _ _) L2). auto.
Qed.

(** Sharing of [d] lamports. *)
Lemma share_bounds d T acc p eff r : d < U64 -> eff <= T -> 0 < T -> acc < U128 ->
  calculate_stake_rewards_per_token d T = Ok p ->
  calculate_eligible_rewards (wadd128 acc p) acc eff = Ok r ->
  r * T <= d * eff /\ d * eff * 10 ^ 18 < (r + 1) * T * 10 ^ 18 + eff * T.
Proof.
  intros D E T0 A P R. pose proof (rpt_lt _ _ _ D P) as [_ PL].
  rewrite rpt_eq in P by lia. injection P as <-. apply eligible_ok in R as [-> _].
  rewrite wsub_wadd by auto. change (10^18) with SCALE.
  set (p := d * SCALE / T) in *.
  pose proof (N.div_mod (d * SCALE) T ltac:(lia)) as H1. fold p in H1.
  pose proof (N.mod_lt (d * SCALE) T ltac:(lia)) as H2.
  pose proof (N.div_mod (p * eff) SCALE ltac:(lia)) as H3.
  pose proof (N.mod_lt (p * eff) SCALE ltac:(lia)) as H4.
  set (r := p * eff / SCALE) in *. set (m1 := (d * SCALE) mod T) in *. set (m2 := (p * eff) mod SCALE) in *.
  clearbody r m1 m2 p. clear PL.
  split.
  - assert (SCALE * (r * T) <= SCALE * (d * eff)); [|lia].
    assert (SCALE * r <= p * eff) by lia. assert (T * p <= d * SCALE) by lia.
    assert (SCALE * r * T <= p * eff * T) by nia. assert (T * p * eff <= d * SCALE * eff) by nia. lia.
  - assert (d * SCALE < T * p + T) by lia. assert (p * eff < SCALE * (r + 1)) by lia.
    assert (d * SCALE * eff <= (T * p + T) * eff) by nia.
    assert (T * (p * eff) < T * (SCALE * (r + 1))) by nia. lia.
Qed.
Lemma share_sum d T acc p effs : d < U64 -> T < U64 -> 0 < T -> acc < U128 ->
  fold_right N.add 0 effs <= T ->
  calculate_stake_rewards_per_token d T = Ok p ->
  exists rs, Forall2 (fun eff r => calculate_eligible_rewards (wadd128 acc p) acc eff = Ok r) effs rs /\
    fold_right N.add 0 rs <= d.
Proof.
  intros D TU T0 A S P.
  assert (exists rs, Forall2 (fun eff r => calculate_eligible_rewards (wadd128 acc p) acc eff = Ok r) effs rs /\
    fold_right N.add 0 rs * T <= d * fold_right N.add 0 effs) as (rs & F & B).
  { pose proof (rpt_lt _ _ _ D P) as [PT PL]. induction effs as [|x l IH]; simpl in *.
    - exists []. split; [constructor|]. simpl. lia.
    - destruct IH as (rs & F & B); [lia|].
      assert (exists r, calculate_eligible_rewards (wadd128 acc p) acc x = Ok r) as [r R].
      { rewrite eligible_eq, wsub_wadd by auto.
        assert (p * x / SCALE < U64) as L.
        { apply N.div_lt_upper_bound; [lia|]. assert (p * x <= p * T) by nia. lia. }
        rewrite (proj2 (N.ltb_lt _ _) L). eauto. }
      exists (r :: rs). split; [now constructor|]. simpl.
      destruct (share_bounds d T acc p x r) as [Q _]; auto; lia. }
  exists rs. split; auto. assert (d * fold_right N.add 0 effs <= d * T) by nia. nia.
Qed.
