(** C85: holding a position in several stake accounts gains nothing. *)
From Verif Require Import Base Types Layout Instr Math External Processor Runtime History Spec SpecReward
  WorldLemmas Evolve Arith Totals Rewards Collect Inv Progress PropState SpecSplit Demo.

Lemma div_add_le a b c : c <> 0 -> a / c + b / c <= (a + b) / c.
Proof.
  intros NZ. apply N.div_le_lower_bound; [exact NZ|]. pose proof (N.mul_div_le a c NZ). pose proof (N.mul_div_le b c NZ). lia.
Qed.
Lemma div_add_ge a b c : c <> 0 -> (a + b) / c <= a / c + b / c + 1.
Proof.
  intros NZ. apply N.lt_succ_r. apply N.div_lt_upper_bound; [exact NZ|]. rewrite <- N.add_1_r.
  pose proof (N.div_mod a c NZ). pose proof (N.div_mod b c NZ). pose proof (N.mod_lt a c NZ). pose proof (N.mod_lt b c NZ). lia.
Qed.
Lemma sum_le f g ks : (forall k, In k ks -> f k <= g k) -> sum_over f ks <= sum_over g ks.
Proof.
  induction ks as [|k ks IH]; simpl; intros H; [lia|]. specialize (IH (fun x X => H x (or_intror X))). pose proof (H k (or_introl eq_refl)). lia.
Qed.
Lemma sum_eq f g ks : (forall k, In k ks -> f k = g k) -> sum_over f ks = sum_over g ks.
Proof.
  induction ks as [|k ks IH]; simpl; intros H; [reflexivity|]. rewrite (IH (fun x X => H x (or_intror X))), (H k (or_introl eq_refl)). reflexivity.
Qed.
Lemma sum_add f g ks : sum_over (fun k => f k + g k) ks = sum_over f ks + sum_over g ks.
Proof. induction ks as [|k ks IH]; simpl; lia. Qed.
Lemma sum_floor q f c ks : c <> 0 -> sum_over (fun k => q * f k / c) ks <= q * sum_over f ks / c.
Proof.
  intros NZ. induction ks as [|k ks IH]; cbn [sum_over]; [apply N.le_0_l|]. rewrite N.mul_add_distr_l.
  pose proof (div_add_le (q * f k) (q * sum_over f ks) c NZ). lia.
Qed.
Lemma sum_dust q f c ks : c <> 0 -> q * sum_over f ks / c <= sum_over (fun k => q * f k / c) ks + N.of_nat (length ks).
Proof.
  intros NZ. induction ks as [|k ks IH].
  - cbn [sum_over length]. rewrite N.mul_0_r, N.div_0_l by exact NZ. lia.
  - cbn [sum_over length]. rewrite N.mul_add_distr_l. pose proof (div_add_ge (q * f k) (q * sum_over f ks) c NZ). lia.
Qed.

Lemma piece_fields e w ck ms mh ks k : pieces e w ck ms mh ks -> In k ks ->
  exists s, sol_at e w k s /\ stake_of e w ck k = Some (s_del s) /\ held_tokens w k = staked (s_del s) /\
    held_effective w k = effective (s_del s) /\ held_lamports w k = s_lamports s /\
    last_stake (s_del s) = ms /\ last_holder (s_del s) = mh.
Proof.
  intros P I. destruct (P k I) as (s & [O D] & K & A & B). exists s. unfold held_tokens, held_effective, held_lamports, sol_field. rewrite D.
  split; [split; assumption|]. split; [|auto]. apply stake_of_intro; auto; rewrite D; [reflexivity|]. simpl. now rewrite <- K.
Qed.

(** Together the pieces count for no more than one stake with all their tokens and
    all their native stake. *)
Theorem C85_effective e w ck ms mh ks : env_ok e -> reachable e w -> pieces e w ck ms mh ks ->
  sum_over (held_effective w) ks <= single_effective (sum_over (held_tokens w) ks) (sum_over (held_lamports w) ks).
Proof.
  intros OK R P. unfold single_effective.
  assert (forall k, In k ks -> held_effective w k <= held_tokens w k /\ held_effective w k <= 13 * held_lamports w k / 10) as H.
  { intros k I. destruct (piece_fields _ _ _ _ _ _ _ P I) as (s & SA & _ & -> & -> & -> & _).
    pose proof (C02_staker_effective e w k s OK R SA). lia. }
  pose proof (sum_le (held_effective w) (held_tokens w) ks (fun k I => proj1 (H k I))).
  pose proof (sum_le (held_effective w) (fun k => 13 * held_lamports w k / 10) ks (fun k I => proj2 (H k I))).
  pose proof (sum_floor 13 (held_lamports w) 10 ks ltac:(lia)). lia.
Qed.
Print Assumptions C85_effective.

Lemma pieces_pay e w ck ms mh ks : reachable e w -> (exists c, config_at e w ck c) -> pieces e w ck ms mh ks ->
  sum_over (pending e w ck) ks =
  sum_over (fun k => since (acc_at w ck) ms * held_effective w k / 10 ^ 18) ks +
  sum_over (fun k => since (holder_acc e w ck) mh * held_tokens w k / 10 ^ 18) ks.
Proof.
  intros R [c [CO CD]] P. rewrite <- sum_add. apply sum_eq. intros k I.
  destruct (piece_fields _ _ _ _ _ _ _ P I) as (s & _ & S & -> & -> & _ & A & B).
  unfold pending, acc_at. rewrite S, CD. unfold stake_claim, holder_claim. now rewrite A, B.
Qed.
(** ... and are paid no more. *)
Theorem C85_rewards e w ck ms mh ks : env_ok e -> reachable e w -> (exists c, config_at e w ck c) -> pieces e w ck ms mh ks ->
  sum_over (pending e w ck) ks <= single_pay e w ck ms mh (sum_over (held_tokens w) ks) (sum_over (held_lamports w) ks).
Proof.
  intros OK R C P. rewrite (pieces_pay _ _ _ _ _ _ R C P). unfold single_pay.
  pose proof (C85_effective _ _ _ _ _ _ OK R P) as E.
  pose proof (sum_floor (since (acc_at w ck) ms) (held_effective w) (10 ^ 18) ks ltac:(discriminate)) as A.
  pose proof (sum_floor (since (holder_acc e w ck) mh) (held_tokens w) (10 ^ 18) ks ltac:(discriminate)) as B.
  apply N.add_le_mono; [|exact B]. etransitivity; [exact A|]. apply N.div_le_mono; [discriminate|]. now apply N.mul_le_mono_l.
Qed.
Print Assumptions C85_rewards.
(** If every piece has the native stake its tokens need, splitting costs at most two
    lamports a piece. *)
Theorem C85_split_costs_dust e w ck ms mh ks : env_ok e -> reachable e w -> (exists c, config_at e w ck c) -> pieces e w ck ms mh ks ->
  (forall k, In k ks -> held_tokens w k <= 13 * held_lamports w k / 10) ->
  single_pay e w ck ms mh (sum_over (held_tokens w) ks) (sum_over (held_lamports w) ks) <=
  sum_over (pending e w ck) ks + 2 * N.of_nat (length ks).
Proof.
  intros OK R C P CV. rewrite (pieces_pay _ _ _ _ _ _ R C P). unfold single_pay.
  assert (sum_over (held_effective w) ks = sum_over (held_tokens w) ks) as E.
  { apply sum_eq. intros k I. specialize (CV k I). destruct (piece_fields _ _ _ _ _ _ _ P I) as (s & SA & _ & HT & HE & HL & _).
    rewrite HT, HL in CV. rewrite HT, HE, (C02_staker_effective e w k s OK R SA). now apply N.min_l. }
  pose proof (sum_dust (since (acc_at w ck) ms) (held_effective w) (10 ^ 18) ks ltac:(discriminate)) as A.
  pose proof (sum_dust (since (holder_acc e w ck) mh) (held_tokens w) (10 ^ 18) ks ltac:(discriminate)) as B.
  assert (since (acc_at w ck) ms * single_effective (sum_over (held_tokens w) ks) (sum_over (held_lamports w) ks) / 10 ^ 18 <=
          since (acc_at w ck) ms * sum_over (held_effective w) ks / 10 ^ 18) as S.
  { apply N.div_le_mono; [discriminate|]. apply N.mul_le_mono_l. rewrite E. apply N.le_min_l. }
  clear - A B S. lia.
Qed.
Print Assumptions C85_split_costs_dust.

(* Bob's 2000 tokens in two stake accounts, 1000 and [n] lamports of native stake. *)
Definition halves (n : N) : world :=
  at_end (setup ++ [init_sol nat2 vote2 bob n; move nat1 nat2 bob 800; Pay carol kcfg 1000003; harvest_holder (5 * 10 ^ 18)]).
Lemma halves_pieces n : n = 100 \/ n = 700 -> reachable denv (halves n) /\ (exists c, config_at denv (halves n) kcfg c) /\
  pieces denv (halves n) kcfg 0 0 [ksol1; ksol2].
Proof.
  intros [->| ->].
  all: split; [apply at_end_reachable; vm_compute; reflexivity|].
  all: split; [eexists; split; vm_compute; reflexivity|].
  all: intros k [<-|[<-|[]]]; eexists; (split; [split; vm_compute; reflexivity|]); (split; [vm_compute; reflexivity|]);
    split; vm_compute; reflexivity.
Qed.
(* With 100 lamports the second piece's tokens are mostly idle: one stake would count
   for 1430 tokens, the pieces count for 1330. *)
Example C85_case : let w := halves 100 in let ks := [ksol1; ksol2] in
  reachable denv w /\ (exists c, config_at denv w kcfg c) /\ pieces denv w kcfg 0 0 ks /\
  map (held_effective w) ks = [1200; 130] /\
  single_effective (sum_over (held_tokens w) ks) (sum_over (held_lamports w) ks) = 1430 /\
  map (pending denv w kcfg) ks = [661739; 75038] /\
  single_pay denv w kcfg 0 0 (sum_over (held_tokens w) ks) (sum_over (held_lamports w) ks) = 791423.
Proof.
  destruct (halves_pieces 100) as (R & C & P); [auto|]. cbv zeta. split; [exact R|]. split; [exact C|]. split; [exact P|].
  repeat (split; [vm_compute; reflexivity|]). vm_compute. reflexivity.
Qed.
(* With 700 both are covered, and splitting loses the fractions. *)
Example C85_dust_case : let w := halves 700 in let ks := [ksol1; ksol2] in
  (forall k, In k ks -> held_tokens w k <= 13 * held_lamports w k / 10) /\
  map (pending denv w kcfg) ks = [486001; 324000] /\
  single_pay denv w kcfg 0 0 (sum_over (held_tokens w) ks) (sum_over (held_lamports w) ks) = 810002.
Proof.
  cbv zeta. split; [intros k [<-|[<-|[]]]; vm_compute; discriminate|]. split; vm_compute; reflexivity.
Qed.
