(** Exact success conditions of a harvest of SOL-staker rewards. *)
From Verif Require Import Base Types Layout Instr Math External Processor Runtime History Spec SpecReward SpecSolvency SpecLive SpecPanic SpecNeeds
  SpecSync WorldLemmas Effects Handlers Evolve Sane Wf Totals Arith Nets Caps Stakers Deposits Inv Demo PropState PropReward PropSolvency PropLive
  Live LiveMore PropExact Panics PropPanic Needs PropNeeds Sync.

(** ** C64 *)
(** A harvest that went through could pay everybody it settled. *)
Lemma sync_affordable e cx a w w' s vw : env_ok e -> reachable e w -> wf_ctx e cx -> sol_at e w (hs_stake a) s -> c_view cx = Some vw ->
  (forall k, sync_pays e w a s vw k -> k <> hs_config a) -> run e cx (CHarvestSolStakerRewards a) w = Ok w' -> changed s vw ->
  affordable e w (hs_config a) (settles_with e w (hs_config a) (hs_stake a) (vote (s_del s)) (vw_vote vw)).
Proof.
  intros OK R WX SA CV NP RUN CH. pose proof (C54_accounts_authentic e cx (CHarvestSolStakerRewards a) _ _ OK R I RUN) as ND. cbn [needs] in ND.
  destruct ND as (s' & vw' & [[c C0] [SA' ST] NAT [VI CV'] KP PRV CUR]).
  assert (s' = s) as -> by (destruct SA, SA'; congruence). assert (vw' = vw) as -> by congruence.
  destruct (KP CH) as [kp HK]. assert (kp <> hs_config a) as NK by (apply NP; right; auto).
  destruct (C24_sync_harvest_pays _ _ _ _ _ _ _ OK R RUN CV HK NK) as (s2 & c2 & SA2 & _ & P).
  assert (s2 = s) as -> by (destruct SA, SA2; congruence). destruct (P CH) as (ks & NDK & IN & PAY). clear P.
  assert (step e w (Do cx (CHarvestSolStakerRewards a)) w') as STP by (constructor; simpl; auto).
  destruct (C15_config_identity e w _ w' _ _ OK R (steps_snoc e w [] w _ w' (steps_nil e w) STP) C0) as (cf' & CA' & _).
  pose proof (C35_rent_exempt _ _ _ _ OK (reachable_step _ _ _ _ R STP) CA') as RE.
  exists ks. split; [auto|]. split; [intros k; apply IN|]. specialize (PAY (hs_config a)). cbv zeta in PAY. rewrite N.eqb_refl in PAY.
  destruct ST as (SS & AU & _). assert (hs_authority a <> hs_config a) as NA by (apply NP; left; auto). rewrite AU in NA.
  destruct (N.eqb_spec (hs_config a) (authority (s_del s))); [congruence|]. destruct (N.eqb_spec (hs_config a) kp); [congruence|].
  assert (forall k, In k ks -> share e w (hs_config a) (hs_config a) k = 0) as Z.
  { intros k K. apply IN in K. unfold share. destruct (stake_of e w (hs_config a) k) as [d|] eqn:E; [|auto].
    destruct (N.eqb_spec (authority d) (hs_config a)) as [X|]; auto. exfalso. destruct K as [->|[[LV ->]|(JV & -> & O)]].
    - rewrite SS in E. injection E as <-. contradiction.
    - destruct (PRV CH LV) as [PE (v & [_ DV] & PA)]. rewrite <- PE in E. apply stake_of_some in E as (_ & D & _). rewrite DV in D.
      injection D as <-. apply (NP (hs_prev_auth a)); [right; auto|congruence].
    - destruct (CUR CH JV) as [CE CX]. rewrite <- CE in E, O. destruct (CX O) as (v & [_ DV] & PA).
      apply stake_of_some in E as (_ & D & _). rewrite DV in D. injection D as <-.
      apply (NP (hs_cur_auth a)); [right; split; [auto|]; right; right; split; [split|]; auto|congruence]. }
  assert (sum_over (share e w (hs_config a) (hs_config a)) ks = 0) as ZS.
  { clear - Z. induction ks as [|k ks IH]; cbn [sum_over]; auto. rewrite Z, IH; simpl; auto. intros; apply Z; simpl; auto. }
  rewrite ZS in PAY. lia.
Qed.
Theorem C64_only_if e cx a w w' s vw : env_ok e -> reachable e w -> wf_ctx e cx -> sol_at e w (hs_stake a) s -> c_view cx = Some vw ->
  (forall k, sync_pays e w a s vw k -> k <> hs_config a) -> run e cx (CHarvestSolStakerRewards a) w = Ok w' ->
  can_harvest_sol e w a s vw.
Proof.
  intros OK R WX SA CV NP RUN. assert (vw_effective vw < U64) as V by (destruct WX as (_ & _ & W); now apply (W _ CV)).
  pose proof RUN as RUN'. apply run_ok in RUN as (H & _). simpl in H. eapply harvest_sol_must; eauto using inv_reachable.
  intros CH. eapply sync_affordable; eauto.
Qed.
Print Assumptions C64_only_if.
Theorem C64_exact e cx a w s vw : env_ok e -> reachable e w -> wf_ctx e cx -> total_lamports w < 2 ^ 64 ->
  sol_at e w (hs_stake a) s -> c_view cx = Some vw ->
  (forall k, sync_pays e w a s vw k -> k <> hs_config a) -> (forall k, sync_writes e w a s vw k -> writable cx k = true) ->
  ((exists w', step e w (Do cx (CHarvestSolStakerRewards a)) w') <-> can_harvest_sol e w a s vw).
Proof.
  intros OK R WX T SA CV NP WR. split.
  - intros [w' ST]. inversion ST; subst. eapply C64_only_if; eauto.
  - intros CN. assert (vw_effective vw < U64) as V by (destruct WX as (_ & _ & W); now apply (W _ CV)).
    destruct (harvest_sol_can e cx a w s vw OK (inv_reachable _ _ OK R) T SA CV V CN NP WR) as [w' RUN].
    exists w'. constructor; simpl; auto.
Qed.
Print Assumptions C64_exact.
(** While nothing changed, neither the keeper nor the validators' accounts matter. *)
Theorem C64_unchanged e cx a w s vw : env_ok e -> reachable e w -> wf_ctx e cx -> total_lamports w < 2 ^ 64 ->
  sol_at e w (hs_stake a) s -> c_view cx = Some vw -> ~ changed s vw -> hs_authority a <> hs_config a ->
  (forall k, In k [hs_config a; hs_stake a; hs_authority a] -> writable cx k = true) ->
  ((exists w', step e w (Do cx (CHarvestSolStakerRewards a)) w') <->
   (exists c, config_at e w (hs_config a) c) /\
   can_settle e w (hs_config a) (hs_stake a) (hs_authority a) (hs_vhr a) (s_del s) /\
   hs_native a = s_native s /\ hs_view a = e_view e).
Proof.
  intros OK R WX T SA CV NC NA WR.
  assert (forall k, sync_pays e w a s vw k -> k <> hs_config a) as P by (intros k [->|[K _]]; [auto|contradiction]).
  assert (forall k, sync_writes e w a s vw k -> writable cx k = true) as Q by (intros k [K|[K _]]; [auto|contradiction]).
  rewrite (C64_exact e cx a w s vw OK R WX T SA CV P Q).
  split; [intros []; auto|]. intros (C & S & NT & V). constructor; auto. intros; contradiction.
Qed.
Print Assumptions C64_unchanged.

(* The staker of the story, first unchanged and without keeper, then after moving
   to validator 2; both harvests are acts of the story. *)
Definition one_act (a : act) : option (ctx * call) := match a with Call x c => Some (x, c) | _ => None end.
Example C64_case : forall i vw kp, In (i, vw, kp) [(7%nat, View vote1 bob 1000, None); (10%nat, View vote2 bob 700, Some carol)] ->
  let w := at_end (firstn i story) in
  exists x a, one_act (nth i story init_config) = Some (x, CHarvestSolStakerRewards a) /\
    reachable denv w /\ wf_ctx denv x /\ total_lamports w < 2 ^ 64 /\ sol_at denv w (hs_stake a) (sol_of w ksol1) /\ c_view x = Some vw /\
    hs_keeper a = kp /\ hs_stake a = ksol1 /\
    (forall k, sync_pays denv w a (sol_of w ksol1) vw k -> k <> hs_config a) /\
    (forall k, sync_writes denv w a (sol_of w ksol1) vw k -> writable x k = true) /\
    can_harvest_sol denv w a (sol_of w ksol1) vw.
Proof.
  intros i vw kp IN w.
  assert (exists x a, one_act (nth i story init_config) = Some (x, CHarvestSolStakerRewards a) /\ sol_at denv w (hs_stake a) (sol_of w ksol1) /\
    c_view x = Some vw /\ hs_keeper a = kp /\ hs_stake a = ksol1 /\ total_lamports w < 2 ^ 64 /\
    existsb (N.eqb (hs_config a)) (hs_authority a :: hs_prev_auth a :: hs_cur_auth a :: opt_list (hs_keeper a)) = false /\
    forallb (writable x) ([hs_config a; hs_stake a; hs_authority a; hs_prev a; hs_prev_auth a; hs_cur a; hs_cur_auth a] ++ opt_list (hs_keeper a)) = true)
    as (x & a & E & SA & CV & K & SK & T & NP & WR).
  { destruct IN as [IN|[IN|[]]]; injection IN as <- <- <-; (do 2 eexists; split; [reflexivity|]; unfold w; split; [split; calc|]; do 5 (split; [calc|]); calc). }
  assert (runs story = true) as RS by calc.
  assert (firstn i story ++ nth i story init_config :: skipn (Datatypes.S i) story = story) as SPL
    by (destruct IN as [IN|[IN|[]]]; injection IN as <- <- <-; reflexivity).
  assert (nth i story init_config = Call x (CHarvestSolStakerRewards a)) as EC.
  { destruct (nth i story init_config); simpl in E; congruence. }
  rewrite EC in SPL. assert (runs (firstn i story ++ [Call x (CHarvestSolStakerRewards a)]) = true) as R1.
  { apply (runs_front _ (skipn (Datatypes.S i) story)). etransitivity; [|exact RS]. f_equal. rewrite <- app_assoc. exact SPL. }
  assert (reachable denv w) as R by (apply at_end_reachable; eapply runs_front; exact R1).
  destruct (at_end_run _ _ _ R1) as (WX & WC & RUN). fold w in RUN.
  assert (forall k, sync_pays denv w a (sol_of w ksol1) vw k -> k <> hs_config a) as P.
  { intros k KP ->. assert (existsb (N.eqb (hs_config a)) (hs_authority a :: hs_prev_auth a :: hs_cur_auth a :: opt_list (hs_keeper a)) = true) as X.
    { apply existsb_exists. exists (hs_config a). split; [|apply N.eqb_refl].
      destruct KP as [->|(_ & [->|[[_ ->]|[_ ->]]])]; simpl; auto. }
    congruence. }
  assert (forall k, sync_writes denv w a (sol_of w ksol1) vw k -> writable x k = true) as Q.
  { rewrite forallb_forall in WR. intros k KP. apply WR. apply in_or_app. simpl.
    destruct KP as [KP|(_ & [->|[[_ KP]|[_ KP]]])]; simpl in *; tauto. }
  exists x, a. do 10 (split; [assumption|]). eapply C64_only_if; eauto. apply denv_ok.
Qed.
(* Without a keeper, or with another authority for the validator left, it fails. *)
Example C64_failure_case : let w := at_end (firstn 10 story) in
  let bad kp pa := run denv (cx [] 0 (Some (View vote2 bob 700)) 0)
    (CHarvestSolStakerRewards (HarvestSolA (e_view denv) kcfg kvhr ksol1 bob nat1 kval1 pa kval2 dave kp)) w in
  bad None alice = Err NotEnoughAccountKeys /\ bad (Some carol) bob = Err (Stake InvalidAuthority) /\
  exists w', bad (Some carol) alice = Ok w'.
Proof.
  intros w bad. split; [calc|]. split; [calc|]. destruct (bad (Some carol) alice) as [w'|x|] eqn:E; [eauto|exfalso..].
  all: assert (match bad (Some carol) alice with Ok _ => true | _ => false end = true) as X by calc; rewrite E in X; discriminate.
Qed.
