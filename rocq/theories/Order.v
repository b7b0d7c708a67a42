(** Harvests of different stake accounts of one config can be exchanged. *)
From Coq Require Import Permutation.
From Verif Require Import Base Types Layout Instr Math External Processor Runtime History Spec
  WorldLemmas Effects Handlers Arith Wf Totals Nets Rewards Progress Live SpecLocal Touches Local SpecOrder.

(** ** What a paying harvest does *)
Definition gain (b : bool) (t : N) : N := if b then t else 0.
Record paid (e : env) (w : world) (ck sk auth : pubkey) (c : config) (d : delegation) (h : holder)
    (rpt sr hr : N) (w' : world) : Prop := {
  pd_r : reading e w ck (e_vault e ck) sk c d h rpt sr hr;
  pd_a : auth = authority d;
  pd_0 : auth = ck -> sr + hr = 0;
  pd_b : lam (get w auth) + (sr + hr) < U64;
  pd_o : forall k, own (get w' k) = own (get w k);
  pd_l : forall k, lam (get w' k) = lam (get w k) - gain (k =? ck) (sr + hr) + gain (k =? auth) (sr + hr);
  pd_c : dat (get w' ck) = DConfig (settle_cfg c rpt (lam (get w ck) - (sr + hr)));
  pd_s : dat (get w' sk) = upd_del (dat (get w sk)) (settle_del c rpt h d);
  pd_x : forall k, k <> ck -> k <> sk -> dat (get w' k) = dat (get w k) }.

Lemma reading_fun e w ck va sk c d h rpt sr hr c' d' h' rpt' sr' hr' :
  reading e w ck va sk c d h rpt sr hr -> reading e w ck va sk c' d' h' rpt' sr' hr' ->
  c' = c /\ d' = d /\ h' = h /\ rpt' = rpt /\ sr' = sr /\ hr' = hr.
Proof.
  intros [C D H _ R S T _ _] [C' D' H' _ R' S' T' _ _].
  rewrite C in C'. injection C' as <-. rewrite D in D'. injection D' as <-. rewrite H in H'. injection H' as <-.
  rewrite R in R'. injection R' as <-. rewrite S in S'. injection S' as <-. rewrite T in T'. injection T' as <-.
  auto 10.
Qed.

Lemma harvest_paid e w ck auth sk w' :
  harvest e w ck (e_holder e (e_vault e ck)) auth (e_vault e ck) sk None = Ok w' ->
  total_lamports w' = total_lamports w ->
  exists c d h rpt sr hr, paid e w ck sk auth c d h rpt sr hr w'.
Proof.
  intros H T. apply harvest_ok in H.
  destruct (harvested_net _ _ _ _ _ _ _ _ _ H) as (c & d & h & rpt & sr & hr & RD & AU & _ & O & L & C & S & X).
  destruct (total_harvest _ _ _ _ _ _ _ _ _ H) as (c1 & d1 & h1 & rpt1 & sr1 & hr1 & RD1 & T1); [discriminate|].
  destruct (reading_fun _ _ _ _ _ _ _ _ _ _ _ _ _ _ _ _ _ RD RD1) as (-> & -> & -> & -> & -> & ->).
  exists c, d, h, rpt, sr, hr.
  assert (auth = ck -> sr + hr = 0) as Z.
  { intros ->. rewrite N.eqb_refl in T1. lia. }
  split; auto.
  - destruct H. pose proof (reading_fun e w ck (e_vault e ck) sk c d h rpt sr hr c0 d0 h0 rpt0 sr0 hr0) as F.
    destruct F as (-> & -> & -> & -> & -> & ->); [auto|split; auto; now rewrite <- Hv|].
    unfold keeper_lam, keeper_part in Hkb. lia.
  - intros k. rewrite L. unfold paid_lam, keeper_lam, keeper_part, gain.
    rewrite (N.eqb_sym k ck), (N.eqb_sym k auth).
    destruct (N.eqb_spec auth k) as [<-|]; [|destruct (N.eqb_spec ck k) as [<-|]; lia].
    destruct (N.eqb_spec ck auth) as [E|]; [|lia]. symmetry in E. specialize (Z E). lia.
  - rewrite S. apply with_del_ok, RD.
Qed.

Lemma paid_touches e w ck sk auth c d h rpt sr hr w' : paid e w ck sk auth c d h rpt sr hr w' ->
  Live.touches [ck; sk; auth] w w'.
Proof.
  intros P k N. simpl in N. apply account_ext; [|apply P|apply P; intros ->; tauto].
  rewrite (pd_l _ _ _ _ _ _ _ _ _ _ _ _ P). unfold gain.
  destruct (N.eqb_spec k ck); [subst; tauto|]. destruct (N.eqb_spec k auth); [subst; tauto|]. lia.
Qed.

(* The converse: what has to hold for a harvest to pay. *)
Lemma paid_runs e w ck auth sk c d h rpt sr hr :
  reading e w ck (e_vault e ck) sk c d h rpt sr hr -> auth = authority d -> (auth = ck -> sr + hr = 0) ->
  lam (get w ck) < U64 -> lam (get w auth) + (sr + hr) < U64 ->
  exists w', harvest e w ck (e_holder e (e_vault e ck)) auth (e_vault e ck) sk None = Ok w' /\
    total_lamports w' = total_lamports w /\ paid e w ck sk auth c d h rpt sr hr w'.
Proof.
  intros RD AU Z L1 L2. destruct (harvest_runs e w ck _ auth _ sk c d h rpt sr hr RD AU eq_refl L1 L2) as [w' H].
  exists w'. split; [exact H|].
  assert (total_lamports w' = total_lamports w) as T.
  { destruct (total_harvest _ _ _ _ _ _ _ _ _ (harvest_ok _ _ _ _ _ _ _ _ _ H)) as (c1 & d1 & h1 & rpt1 & sr1 & hr1 & RD1 & T1); [discriminate|].
    destruct (reading_fun _ _ _ _ _ _ _ _ _ _ _ _ _ _ _ _ _ RD RD1) as (-> & -> & -> & -> & -> & ->).
    rewrite T1. destruct (N.eqb_spec auth ck) as [E|]; [rewrite (Z E)|]; lia. }
  split; [exact T|]. destruct (harvest_paid _ _ _ _ _ _ H T) as (c1 & d1 & h1 & rpt1 & sr1 & hr1 & P).
  destruct (reading_fun _ _ _ _ _ _ _ _ _ _ _ _ _ _ _ _ _ RD (pd_r _ _ _ _ _ _ _ _ _ _ _ _ P)) as (-> & -> & -> & -> & -> & ->).
  exact P.
Qed.

(** ** The reading of one stake account after another one was paid *)
Lemma rpt_zero x : calculate_stake_rewards_per_token 0 x = Ok 0.
Proof.
  destruct (N.eq_dec x 0) as [->|NZ]; [reflexivity|]. rewrite rpt_eq by (auto; lia).
  rewrite N.mul_0_l. now rewrite N.div_0_l by auto.
Qed.
Lemma wadd_zero x : wadd128 (wadd128 x 0) 0 = wadd128 x 0.
Proof. unfold wadd128. now rewrite !N.add_0_r, N.mod_mod by lia. Qed.
Lemma wadd_again x y : wadd128 (wadd128 x y) 0 = wadd128 x y.
Proof. unfold wadd128. now rewrite N.add_0_r, N.mod_mod by lia. Qed.

Section after_another.
Context (e : env) (w : world) (ck s1 a1 : pubkey) (c : config) (d1 : delegation) (h1 : holder) (rpt sr1 hr1 : N) (w1 : world).
Context (P : paid e w ck s1 a1 c d1 h1 rpt sr1 hr1 w1).

Lemma paid_cklam : lam (get w1 ck) = lam (get w ck) - (sr1 + hr1).
Proof.
  rewrite (pd_l _ _ _ _ _ _ _ _ _ _ _ _ P). unfold gain. rewrite N.eqb_refl.
  destruct (N.eqb_spec ck a1) as [E|]; [|lia]. pose proof (pd_0 _ _ _ _ _ _ _ _ _ _ _ _ P (eq_sym E)). lia.
Qed.
Lemma paid_sk : s1 <> ck.
Proof. intros E. destruct (pd_r _ _ _ _ _ _ _ _ _ _ _ _ P). rewrite E, rd_c in rd_d. discriminate. Qed.
Lemma paid_holder k h : dat (get w k) = DHolder h <-> dat (get w1 k) = DHolder h.
Proof.
  destruct (N.eq_dec k ck) as [->|].
  { rewrite (pd_c _ _ _ _ _ _ _ _ _ _ _ _ P), (rd_c _ _ _ _ _ _ _ _ _ _ _ (pd_r _ _ _ _ _ _ _ _ _ _ _ _ P)). split; discriminate. }
  destruct (N.eq_dec k s1) as [->|]; [|now rewrite (pd_x _ _ _ _ _ _ _ _ _ _ _ _ P)].
  rewrite (pd_s _ _ _ _ _ _ _ _ _ _ _ _ P). pose proof (rd_d _ _ _ _ _ _ _ _ _ _ _ (pd_r _ _ _ _ _ _ _ _ _ _ _ _ P)) as D.
  destruct (dat (get w s1)); simpl in *; split; try discriminate.
Qed.

(* Forwards: the second one reads the same in both worlds, the rate having been
   brought up to date already. *)
Lemma reading_later s2 d2 h2 sr2 hr2 : s2 <> s1 -> reading e w ck (e_vault e ck) s2 c d2 h2 rpt sr2 hr2 ->
  e_rent e CONFIG_LEN + sr1 + hr1 + sr2 + hr2 <= lam (get w ck) ->
  reading e w1 ck (e_vault e ck) s2 (settle_cfg c rpt (lam (get w ck) - (sr1 + hr1))) d2 h2 0 sr2 hr2.
Proof.
  intros N [] R. assert (s2 <> ck) as N2 by (intros ->; rewrite rd_c in rd_d; discriminate).
  split; rewrite ?paid_cklam; cbn [settle_cfg set_cfg_last set_cfg_acc cfg_last cfg_acc cfg_effective]; try lia.
  - apply (pd_c _ _ _ _ _ _ _ _ _ _ _ _ P).
  - now rewrite (pd_x _ _ _ _ _ _ _ _ _ _ _ _ P).
  - now apply paid_holder.
  - rewrite N.sub_diag. apply rpt_zero.
  - now rewrite wadd_again.
  - auto.
Qed.
(* Backwards. *)
Lemma reading_earlier s2 c' d2 h2 rpt' sr2 hr2 : s2 <> s1 -> reading e w1 ck (e_vault e ck) s2 c' d2 h2 rpt' sr2 hr2 ->
  reading e w ck (e_vault e ck) s2 c d2 h2 rpt sr2 hr2 /\
  e_rent e CONFIG_LEN + sr1 + hr1 + sr2 + hr2 <= lam (get w ck).
Proof.
  intros N []. assert (s2 <> ck) as N2 by (intros ->; rewrite rd_c in rd_d; discriminate).
  rewrite (pd_c _ _ _ _ _ _ _ _ _ _ _ _ P) in rd_c. injection rd_c as <-.
  rewrite ?paid_cklam in *. cbn [settle_cfg set_cfg_last set_cfg_acc cfg_last cfg_acc cfg_effective] in *.
  rewrite N.sub_diag, rpt_zero in rd_r. injection rd_r as <-. rewrite wadd_again in rd_sr.
  rewrite (pd_x _ _ _ _ _ _ _ _ _ _ _ _ P) in rd_d by auto. apply paid_holder in rd_h.
  destruct (pd_r _ _ _ _ _ _ _ _ _ _ _ _ P). split; [split; auto; lia|lia].
Qed.
End after_another.

(** ** Two payments *)
Lemma swap_paid e w ck s1 a1 s2 a2 w1 w2 c1 d1 h1 rpt1 sr1 hr1 c2 d2 h2 rpt2 sr2 hr2 : s1 <> s2 ->
  lam (get w ck) < U64 ->
  paid e w ck s1 a1 c1 d1 h1 rpt1 sr1 hr1 w1 -> paid e w1 ck s2 a2 c2 d2 h2 rpt2 sr2 hr2 w2 ->
  exists v1 v2 c3,
    harvest e w ck (e_holder e (e_vault e ck)) a2 (e_vault e ck) s2 None = Ok v1 /\
    total_lamports v1 = total_lamports w /\ paid e w ck s2 a2 c1 d2 h2 rpt1 sr2 hr2 v1 /\
    harvest e v1 ck (e_holder e (e_vault e ck)) a1 (e_vault e ck) s1 None = Ok v2 /\
    total_lamports v2 = total_lamports v1 /\ paid e v1 ck s1 a1 c3 d1 h1 0 sr1 hr1 v2 /\
    same_world w2 v2.
Proof.
  intros NS LC P1 P2.
  destruct (reading_earlier _ _ _ _ _ _ _ _ _ _ _ _ P1 s2 c2 d2 h2 rpt2 sr2 hr2) as [R2 RB]; [auto|apply P2|].
  pose proof (pd_r _ _ _ _ _ _ _ _ _ _ _ _ P1) as R1.
  pose proof (pd_0 _ _ _ _ _ _ _ _ _ _ _ _ P1) as Z1. pose proof (pd_0 _ _ _ _ _ _ _ _ _ _ _ _ P2) as Z2.
  pose proof (pd_b _ _ _ _ _ _ _ _ _ _ _ _ P1) as B1. pose proof (pd_b _ _ _ _ _ _ _ _ _ _ _ _ P2) as B2.
  pose proof (pd_l _ _ _ _ _ _ _ _ _ _ _ _ P1) as L1. pose proof (pd_l _ _ _ _ _ _ _ _ _ _ _ _ P2) as L2.
  assert (lam (get w a2) + (sr2 + hr2) < U64) as B2'.
  { rewrite L1 in B2. unfold gain in B2. destruct (N.eqb_spec a2 ck) as [E|]; [rewrite (Z2 E), E; clear - LC; lia|].
    clear - B2. destruct (a2 =? a1); lia. }
  destruct (paid_runs e w ck a2 s2 c1 d2 h2 rpt1 sr2 hr2 R2 (pd_a _ _ _ _ _ _ _ _ _ _ _ _ P2) Z2 LC B2') as (v1 & H1 & T1 & Q1).
  pose proof (pd_l _ _ _ _ _ _ _ _ _ _ _ _ Q1) as M1.
  assert (reading e v1 ck (e_vault e ck) s1 (settle_cfg c1 rpt1 (lam (get w ck) - (sr2 + hr2))) d1 h1 0 sr1 hr1) as R3.
  { apply (reading_later _ _ _ _ _ _ _ _ _ _ _ _ Q1); auto. clear - RB. lia. }
  assert (lam (get v1 ck) < U64) as LC'.
  { rewrite (paid_cklam _ _ _ _ _ _ _ _ _ _ _ _ Q1). clear - LC. lia. }
  assert (lam (get v1 a1) + (sr1 + hr1) < U64) as B1'.
  { destruct (N.eq_dec a1 ck) as [E|NE]; [rewrite (Z1 E), E; clear - LC'; lia|].
    rewrite M1. unfold gain. rewrite (proj2 (N.eqb_neq _ _) NE).
    destruct (N.eqb_spec a1 a2) as [E|]; [|clear - B1; lia].
    rewrite L1 in B2. unfold gain in B2. rewrite <- E, N.eqb_refl, (proj2 (N.eqb_neq _ _) NE) in B2. clear - B2. lia. }
  destruct (paid_runs e v1 ck a1 s1 _ d1 h1 0 sr1 hr1 R3 (pd_a _ _ _ _ _ _ _ _ _ _ _ _ P1) Z1 LC' B1') as (v2 & H2 & T2 & Q2).
  pose proof (pd_l _ _ _ _ _ _ _ _ _ _ _ _ Q2) as M2.
  exists v1, v2, (settle_cfg c1 rpt1 (lam (get w ck) - (sr2 + hr2))). repeat (split; [auto|]).
  intros k. apply account_ext.
  - rewrite L2, L1, M2, M1. unfold gain.
    assert (sr1 + hr1 + (sr2 + hr2) <= lam (get w ck)) as BB by (clear - RB; lia).
    destruct (N.eqb_spec k ck) as [->|]; [|clear; lia].
    destruct (N.eqb_spec ck a1) as [E1|]; [rewrite (Z1 (eq_sym E1))|];
      (destruct (N.eqb_spec ck a2) as [E2|]; [rewrite (Z2 (eq_sym E2))|]); clear - BB; lia.
  - now rewrite (pd_o _ _ _ _ _ _ _ _ _ _ _ _ P2), (pd_o _ _ _ _ _ _ _ _ _ _ _ _ P1), (pd_o _ _ _ _ _ _ _ _ _ _ _ _ Q2), (pd_o _ _ _ _ _ _ _ _ _ _ _ _ Q1).
  - pose proof (pd_r _ _ _ _ _ _ _ _ _ _ _ _ P2) as RP2. destruct RP2 as [C2 D2 _ _ RR _ _ _ _].
    rewrite (pd_c _ _ _ _ _ _ _ _ _ _ _ _ P1) in C2. injection C2 as <-.
    cbn [settle_cfg set_cfg_last set_cfg_acc cfg_last cfg_acc cfg_effective] in RR.
    rewrite (paid_cklam _ _ _ _ _ _ _ _ _ _ _ _ P1), N.sub_diag, rpt_zero in RR. injection RR as <-.
    pose proof (paid_sk _ _ _ _ _ _ _ _ _ _ _ _ P1) as K1. pose proof (paid_sk _ _ _ _ _ _ _ _ _ _ _ _ P2) as K2.
    destruct (N.eq_dec k ck) as [->|NC].
    { rewrite (pd_c _ _ _ _ _ _ _ _ _ _ _ _ P2), (pd_c _ _ _ _ _ _ _ _ _ _ _ _ Q2).
      rewrite (paid_cklam _ _ _ _ _ _ _ _ _ _ _ _ P1), (paid_cklam _ _ _ _ _ _ _ _ _ _ _ _ Q1).
      unfold settle_cfg, set_cfg_last, set_cfg_acc.
      cbn [cfg_authority cfg_slash cfg_vault cfg_cooldown cfg_effective cfg_sync cfg_last cfg_duna cfg_acc cfg_bps cfg_bump cfg_padding].
      do 2 f_equal. clear. lia. }
    assert (forall g, settle_del (settle_cfg c1 rpt1 g) 0 = settle_del c1 rpt1) as SD.
    { intros g. unfold settle_del, settle_cfg. cbn [set_cfg_last set_cfg_acc cfg_acc]. now rewrite wadd_again. }
    destruct (N.eq_dec k s1) as [->|N1].
    { rewrite (pd_x _ _ _ _ _ _ _ _ _ _ _ _ P2), (pd_s _ _ _ _ _ _ _ _ _ _ _ _ P1), (pd_s _ _ _ _ _ _ _ _ _ _ _ _ Q2), (pd_x _ _ _ _ _ _ _ _ _ _ _ _ Q1) by auto.
      now rewrite SD. }
    destruct (N.eq_dec k s2) as [->|N2].
    { rewrite (pd_s _ _ _ _ _ _ _ _ _ _ _ _ P2), (pd_x _ _ _ _ _ _ _ _ _ _ _ _ P1), (pd_x _ _ _ _ _ _ _ _ _ _ _ _ Q2), (pd_s _ _ _ _ _ _ _ _ _ _ _ _ Q1) by auto.
      now rewrite SD. }
    now rewrite (pd_x _ _ _ _ _ _ _ _ _ _ _ _ P2), (pd_x _ _ _ _ _ _ _ _ _ _ _ _ P1), (pd_x _ _ _ _ _ _ _ _ _ _ _ _ Q2), (pd_x _ _ _ _ _ _ _ _ _ _ _ _ Q1).
Qed.

(** ** Two instructions *)
(* Everything a harvest's checks look at, besides the amounts. *)
Definition bare (D : adata) : adata := with_del (fun d => set_lasts d 0 0) D.
Definition same_checks (ck : pubkey) (w w' : world) : Prop :=
  (forall k, own (get w' k) = own (get w k)) /\
  (exists c c', dat (get w ck) = DConfig c /\ dat (get w' ck) = DConfig c') /\
  (forall k, k <> ck -> bare (dat (get w' k)) = bare (dat (get w k))).
Lemma same_checks_sym ck w w' : same_checks ck w w' -> same_checks ck w' w.
Proof.
  intros (A & (c & c' & B & B') & C). split; [auto|]. split; [eauto|]. intros k N. now rewrite C.
Qed.
Lemma same_checks_trans ck w1 w2 w3 : same_checks ck w1 w2 -> same_checks ck w2 w3 -> same_checks ck w1 w3.
Proof.
  intros (A & (c & c' & B & B') & C) (A2 & (c2 & c2' & B2 & B2') & C2). split; [intros; now rewrite A2, A|].
  split; [eauto|]. intros k N. now rewrite C2, C.
Qed.
Lemma bare_upd D d x y : del_of D = Ok d -> bare (upd_del D (set_lasts d x y)) = bare D.
Proof. destruct D; simpl; intros H; try discriminate; injection H as <-; reflexivity. Qed.
Lemma paid_same e w ck sk auth c d h rpt sr hr w' : paid e w ck sk auth c d h rpt sr hr w' -> same_checks ck w w'.
Proof.
  intros P. pose proof (pd_r _ _ _ _ _ _ _ _ _ _ _ _ P) as []. split; [apply P|]. split; [eexists _, _; split; [eauto|apply P]|].
  intros k N. destruct (N.eq_dec k sk) as [->|]; [|now rewrite (pd_x _ _ _ _ _ _ _ _ _ _ _ _ P)].
  rewrite (pd_s _ _ _ _ _ _ _ _ _ _ _ _ P). now apply bare_upd.
Qed.
Lemma bare_val D v : bare D = bare (DVal v) -> exists v', D = DVal v' /\
  authority (v_del v') = authority (v_del v) /\ vote (v_del v') = vote (v_del v).
Proof.
  destruct D as [| |v'| | | | |]; simpl; intros H; try discriminate. exists v'. split; [auto|].
  destruct v as [[]], v' as [[]]; simpl in *. injection H; intros; subst; auto.
Qed.
Lemma bare_sol D s : bare D = bare (DSol s) -> exists s', D = DSol s' /\
  authority (s_del s') = authority (s_del s) /\ vote (s_del s') = vote (s_del s) /\
  s_native s' = s_native s /\ s_lamports s' = s_lamports s.
Proof.
  destruct D as [| | |s'| | | |]; simpl; intros H; try discriminate. exists s'. split; [auto|].
  destruct s as [[]], s' as [[]]; simpl in *. injection H; intros; subst; auto.
Qed.

Lemma pays_is e w ck x sk auth w' : only_pays w ck x sk auth -> handler e (fst x) (snd x) w = Ok w' ->
  harvest e w ck (e_holder e (e_vault e ck)) auth (e_vault e ck) sk None = Ok w' /\
  forall v v', same_checks ck w v -> harvest e v ck (e_holder e (e_vault e ck)) auth (e_vault e ck) sk None = Ok v' ->
    only_pays v ck x sk auth /\ handler e (fst x) (snd x) v = Ok v'.
Proof.
  intros [cx a <- W1 W2 W3|cx a s vw <- DS VW V1 V2 W1 W2 W3] H; cbn [fst snd handler] in *.
  - unfold harvest_validator_rewards in H. stepn H c Ec. stepn H v0 Ev. apply load_val_ok in Ev as (VO & VD & VK).
    stepg H G1. stepg H G2. rewrite G2 in H. split; [exact H|]. intros v v' (SO & (c1 & c2 & C1 & C2) & SB) HV.
    split; [constructor; auto|]. unfold harvest_validator_rewards, load_config, load_val.
    unfold load_config in Ec. stepg Ec GO.
    assert (hv_stake a <> hv_config a) as NS by (intros E; rewrite E in VD; congruence).
    pose proof (SB _ NS) as B. rewrite VD in B. apply bare_val in B as (v1 & D1 & A1 & O1).
    rewrite C2, D1, !SO, VO, GO, N.eqb_refl. cbn [require bind unpack_config unpack_val].
    rewrite O1, <- VK, N.eqb_refl. cbn [require bind]. rewrite A1, <- G1, N.eqb_refl. cbn [require bind].
    rewrite G2, N.eqb_refl. cbn [require bind]. exact HV.
  - unfold harvest_sol_staker_rewards in H. cbv zeta in H. stepn H c Ec. stepn H s0 Es. apply load_sol_ok in Es as (VO & VD & VK).
    rewrite DS in VD. injection VD as <-.
    stepg H G1. stepg H G2. stepg H G3. stepg H G4. rewrite VW, bind_Ok in H.
    rewrite V1, V2, !N.eqb_refl in H. cbn [negb orb bind] in H. rewrite G3 in H.
    match type of H with (let* _ := ?h in _) = _ => destruct h as [w1| |] eqn:E1; cbn [bind] in H; try discriminate end.
    injection H as <-. split; [reflexivity|].
    intros v v' (SO & (c1 & c2 & C1 & C2) & SB) HV.
    unfold load_config in Ec. stepg Ec GO.
    assert (hs_stake a <> hs_config a) as NS by (intros E; rewrite E in DS; congruence).
    pose proof (SB _ NS) as B. rewrite DS in B. apply bare_sol in B as (s1 & D1 & A1 & O1 & T1 & L1).
    split; [econstructor; eauto; congruence|]. unfold harvest_sol_staker_rewards, load_config, load_sol. cbv zeta.
    rewrite C2, D1, !SO, VO, GO, N.eqb_refl. cbn [require bind unpack_config unpack_sol].
    rewrite T1, <- VK, N.eqb_refl. cbn [require bind]. rewrite A1, <- G1, N.eqb_refl. cbn [require bind].
    rewrite T1, G2, N.eqb_refl. cbn [require bind]. rewrite ?G3, N.eqb_refl. cbn [require bind].
    rewrite ?G4, N.eqb_refl. cbn [require bind]. rewrite VW, bind_Ok, L1, O1, V1, V2, !N.eqb_refl. cbn [negb orb bind].
    rewrite HV. reflexivity.
Qed.

Lemma pays_writable w ck x sk auth : only_pays w ck x sk auth ->
  forall k, In k [ck; sk; auth] -> writable (fst x) k = true.
Proof. intros []; simpl; intros k [<-|[<-|[<-|[]]]]; auto. Qed.

Lemma run_handler e cx c w w' : run e cx c w = Ok w' -> handler e cx c w = Ok w' /\ total_lamports w' = total_lamports w.
Proof.
  unfold run. intros H. stepn H w1 E. stepn H u R. injection H as <-. split; [auto|].
  unfold runtime_check in R. stepg R G. auto.
Qed.

Lemma run_pays e w ck x sk auth w' : only_pays w ck x sk auth -> run e (fst x) (snd x) w = Ok w' ->
  exists c d h rpt sr hr, paid e w ck sk auth c d h rpt sr hr w'.
Proof.
  intros P R. apply run_handler in R as [H T]. apply (pays_is _ _ _ _ _ _ _ P) in H as [H _]. now apply harvest_paid in H.
Qed.
Lemma pays_run e ck x sk auth v v' c d h rpt sr hr : only_pays v ck x sk auth ->
  handler e (fst x) (snd x) v = Ok v' -> total_lamports v' = total_lamports v ->
  paid e v ck sk auth c d h rpt sr hr v' -> run e (fst x) (snd x) v = Ok v'.
Proof.
  intros P H T D. unfold run. rewrite H, bind_Ok.
  rewrite (runtime_check_touches _ [ck; sk; auth]); [reflexivity| |auto|].
  - eapply paid_touches; eauto.
  - eapply pays_writable; eauto.
Qed.
Lemma pays_moved e w ck x sk auth v c d h rpt sr hr s a : only_pays w ck x sk auth -> 
  paid e w ck s a c d h rpt sr hr v -> only_pays v ck x sk auth.
Proof.
  intros [cx b E W1 W2 W3|cx b s0 vw E DS VW V1 V2 W1 W2 W3] P; [constructor; auto|].
  pose proof (pd_r _ _ _ _ _ _ _ _ _ _ _ _ P) as RD. destruct RD as [RC _ _ _ _ _ _ _ _].
  assert (hs_stake b <> ck) as NS by (intros X; rewrite X, RC in DS; discriminate).
  pose proof (paid_same _ _ _ _ _ _ _ _ _ _ _ _ P) as (_ & _ & SB). specialize (SB _ NS). rewrite DS in SB.
  apply bare_sol in SB as (s1 & D1 & A1 & O1 & T1 & L1). econstructor; eauto; congruence.
Qed.

Lemma swap_run e w ck x s1 a1 y s2 a2 w1 w2 : wf_world w -> s1 <> s2 ->
  only_pays w ck x s1 a1 -> only_pays w ck y s2 a2 ->
  run e (fst x) (snd x) w = Ok w1 -> run e (fst y) (snd y) w1 = Ok w2 ->
  exists v1 v2, run e (fst y) (snd y) w = Ok v1 /\ run e (fst x) (snd x) v1 = Ok v2 /\ same_world w2 v2.
Proof.
  intros WF NS PX PY RX RY.
  destruct (run_pays _ _ _ _ _ _ _ PX RX) as (c1 & d1 & h1 & r1 & sr1 & hr1 & Q1).
  pose proof (pays_moved _ _ _ _ _ _ _ _ _ _ _ _ _ _ _ PY Q1) as PY1.
  destruct (run_pays _ _ _ _ _ _ _ PY1 RY) as (c2 & d2 & h2 & r2 & sr2 & hr2 & Q2).
  destruct (swap_paid _ _ _ _ _ _ _ _ _ _ _ _ _ _ _ _ _ _ _ _ _ NS (wf_lam _ ck WF) Q1 Q2)
    as (v1 & v2 & c3 & H1 & T1 & M1 & H2 & T2 & M2 & SW).
  exists v1, v2. apply run_handler in RX as [HX _]. apply run_handler in RY as [HY _].
  destruct (pays_is _ _ _ _ _ _ _ PY1 HY) as [_ Y]. destruct (pays_is _ _ _ _ _ _ _ PX HX) as [_ X].
  destruct (Y w v1) as [PY2 HY2]; [apply same_checks_sym; eapply paid_same; eauto|exact H1|].
  destruct (X v1 v2) as [PX2 HX2]; [eapply paid_same; eauto|exact H2|].
  split; [eapply pays_run; eauto|]. split; [eapply pays_run; eauto|exact SW].
Qed.

(** ** A row of instructions *)
Lemma same_run e cx c w1 w2 : same_world w1 w2 -> alike same_world (run e cx c w1) (run e cx c w2).
Proof.
  intros S. assert (forall ks, agree ks w1 w2) as A by (intros ks k _; apply S).
  pose proof (run_local e cx c (names c) w1 w2 (A _) (incl_refl _)) as H.
  destruct (run e cx c w1) as [v1| |] eqn:E1, (run e cx c w2) as [v2| |] eqn:E2; simpl in *; auto.
  intros k. pose proof (run_local e cx c (k :: names c) w1 w2 (A _)) as K. rewrite E1, E2 in K. simpl in K.
  apply K; [intros z Z; now right|now left].
Qed.
Lemma same_row e l : forall w1 w2, same_world w1 w2 -> alike same_world (in_a_row e l w1) (in_a_row e l w2).
Proof.
  induction l as [|[cx c] l IH]; intros w1 w2 S; [exact S|]. simpl. pose proof (same_run e cx c w1 w2 S) as H.
  destruct (run e cx c w1) as [v1| |], (run e cx c w2) as [v2| |]; simpl in *; try contradiction; auto.
Qed.
Lemma same_trans w1 w2 w3 : same_world w1 w2 -> same_world w2 w3 -> same_world w1 w3.
Proof. intros A B k. now rewrite (A k). Qed.

Lemma wf_paid e w ck x sk auth w' : wf_world w -> only_pays w ck x sk auth -> run e (fst x) (snd x) w = Ok w' -> wf_world w'.
Proof.
  intros W P R. apply run_handler in R as [H _]. apply (pays_is _ _ _ _ _ _ _ P) in H as [H _].
  eapply wf_harvest; [exact W|]. eapply harvest_ok; eauto.
Qed.
