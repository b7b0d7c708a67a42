(** Net effect of each instruction on the program's own accounts. *)
From Verif Require Import Base Types Layout Instr Math External Processor Runtime History Spec
  WorldLemmas Effects Handlers Evolve Sane Arith Totals.

(** The delegation of stake data, updated. *)
Definition with_del (g : delegation -> delegation) (D : adata) : adata :=
  match del_of D with Ok d => upd_del D (g d) | _ => D end.
Lemma with_del_ok g D d : del_of D = Ok d -> with_del g D = upd_del D (g d).
Proof. intros H. unfold with_del. now rewrite H. Qed.

(** What a harvest of [sk] reads and computes in [w]: the config, the
    delegation, the vault's holder record, the rate increase, and the two rewards. *)
Record reading (e : env) (w : world) (ck va sk : pubkey) (c : config) (d : delegation) (h : holder)
    (rpt sr hr : N) : Prop := {
  rd_c : dat (get w ck) = DConfig c;
  rd_d : del_of (dat (get w sk)) = Ok d;
  rd_h : dat (get w (e_holder e va)) = DHolder h;
  rd_l : cfg_last c <= lam (get w ck);
  rd_r : calculate_stake_rewards_per_token (lam (get w ck) - cfg_last c) (cfg_effective c) = Ok rpt;
  rd_sr : calculate_eligible_rewards (wadd128 (cfg_acc c) rpt) (last_stake d) (effective d) = Ok sr;
  rd_hr : calculate_eligible_rewards (h_last h) (last_holder d) (staked d) = Ok hr;
  rd_lam : sr + hr <= lam (get w ck);
  rd_rent : e_rent e CONFIG_LEN <= lam (get w ck) - (sr + hr);
}.
(** The config and the delegation after settling. *)
Definition settle_cfg (c : config) (rpt l : N) : config :=
  set_cfg_last (set_cfg_acc c (wadd128 (cfg_acc c) rpt)) l.
Definition settle_del (c : config) (rpt : N) (h : holder) (d : delegation) : delegation :=
  set_lasts d (h_last h) (wadd128 (cfg_acc c) rpt).

Lemma harvested_net e w ck vhr auth va sk keeper w' : harvested e w ck vhr auth va sk keeper w' ->
  exists c d h rpt sr hr, reading e w ck va sk c d h rpt sr hr /\ auth = authority d /\ vhr = e_holder e va /\
    (forall k, own (get w' k) = own (get w k)) /\
    (forall k, lam (get w' k) = paid_lam w ck auth keeper (sr + hr) (cfg_sync c) k) /\
    dat (get w' ck) = DConfig (settle_cfg c rpt (lam (get w ck) - (sr + hr))) /\
    dat (get w' sk) = with_del (settle_del c rpt h) (dat (get w sk)) /\
    (forall k, k <> ck -> k <> sk -> dat (get w' k) = dat (get w k)).
Proof.
  intros H. pose proof (harvested_sk _ _ _ _ _ _ _ _ _ H) as NS. destruct H. subst vhr.
  exists c, d, h, rpt, sr, hr. split; [split; auto|]. split; [auto|]. split; [auto|].
  split; [auto|]. split; [auto|]. split; [now rewrite Hdat, N.eqb_refl|]. split.
  - rewrite Hdat, (proj2 (N.eqb_neq _ _) NS), N.eqb_refl, (with_del_ok _ _ _ Hd). auto.
  - intros k N1 N2. rewrite Hdat. destruct (N.eqb_spec ck k); [congruence|].
    destruct (N.eqb_spec sk k); congruence.
Qed.

(** Harvest, change the stake account, call out, re-cap. *)
Inductive chained (e : env) (w : world) (ck va sk : pubkey) (F : adata -> adata) (lim : N) (w' : world) : Prop :=
| Chained c d h rpt sr hr D2 d2
    (Hrd : reading e w ck va sk c d h rpt sr hr)
    (HD2 : D2 = F (with_del (settle_del c rpt h) (dat (get w sk))))
    (Hd2 : del_of D2 = Ok d2)
    (Hef : effective d2 <= cfg_effective c)
    (Hsk : dat (get w' sk) = upd_del D2 (set_effective d2 (N.min (staked d2) (cap lim))))
    (Hck : dat (get w' ck) = DConfig (set_cfg_effective (settle_cfg c rpt (lam (get w ck) - (sr + hr)))
              (cfg_effective c - effective d2 + N.min (staked d2) (cap lim))))
    (Hown : forall k, own (get w' k) = own (get w k))
    (Hoth : forall k, k <> ck -> k <> sk -> own (get w k) = e_prog e -> dat (get w' k) = dat (get w k)).

Lemma chain_net e w ck vhr auth va sk keeper w1 F d2 w2 w3 lim w' :
  harvested e w ck vhr auth va sk keeper w1 ->
  w2 = setd w1 sk (F (dat (get w1 sk))) -> del_of (F (dat (get w1 sk))) = Ok d2 ->
  pframe e w2 w3 -> own (get w ck) = e_prog e -> own (get w sk) = e_prog e ->
  resynced w3 ck sk lim w' -> chained e w ck va sk F lim w'.
Proof.
  intros H E2 D2 [PO PD] OC OS R. pose proof (harvested_sk _ _ _ _ _ _ _ _ _ H) as NS.
  destruct (harvested_net _ _ _ _ _ _ _ _ _ H) as (c & d & h & rpt & sr & hr & RD & _ & _ & O1 & _ & C1 & S1 & X1).
  assert (own (get w2 ck) = e_prog e) as O2c by (rewrite E2; ws; rewrite O1; auto).
  assert (own (get w2 sk) = e_prog e) as O2s by (rewrite E2; ws; rewrite O1; auto).
  assert (dat (get w3 ck) = DConfig (settle_cfg c rpt (lam (get w ck) - (sr + hr)))) as C3.
  { rewrite PD, E2 by auto. ws. destruct (N.eqb_spec sk ck); congruence. }
  assert (dat (get w3 sk) = F (dat (get w1 sk))) as S3.
  { rewrite PD, E2 by auto. ws. now rewrite N.eqb_refl. }
  destruct R as [c3 d3 limit Hc Hd Hm He Hb Ho Hdat _].
  assert (d3 = d2) as -> by congruence. rewrite C3 in Hc. injection Hc as <-.
  apply maxstake_ok in Hm. fold (cap lim) in Hm. subst limit. simpl in He.
  apply (Chained e w ck va sk F lim w' c d h rpt sr hr (F (with_del (settle_del c rpt h) (dat (get w sk)))) d2).
  - auto.
  - auto.
  - congruence.
  - auto.
  - rewrite Hdat, (proj2 (N.eqb_neq _ _) NS), N.eqb_refl. congruence.
  - rewrite Hdat, N.eqb_refl. reflexivity.
  - intros k. rewrite Ho, PO, E2. ws. apply O1.
  - intros k N1 N2 O. rewrite Hdat. destruct (N.eqb_spec ck k); [congruence|].
    destruct (N.eqb_spec sk k); [congruence|]. rewrite PD.
    + rewrite E2. ws. destruct (N.eqb_spec sk k); [congruence|]. auto.
    + rewrite E2. ws. rewrite O1; auto.
Qed.
Lemma chained_pframe e w ck va sk F lim w1 w2 : chained e w ck va sk F lim w1 -> pframe e w1 w2 ->
  own (get w ck) = e_prog e -> own (get w sk) = e_prog e -> chained e w ck va sk F lim w2.
Proof.
  intros [] [PO PD] OC OS. 
  apply (Chained e w ck va sk F lim w2 c d h rpt sr hr D2 d2); auto.
  - rewrite PD; auto. rewrite Hown; auto.
  - rewrite PD; auto. rewrite Hown; auto.
  - intros k. now rewrite PO.
  - intros k N1 N2 O. rewrite PD; auto. rewrite Hown; auto.
Qed.

Definition add_stake (n : N) (d : delegation) : delegation := set_staked d (staked d + n).
Definition sub_stake (n : N) (d : delegation) : delegation := set_staked d (staked d - n).
Definition slash_stake_by (n : N) (d : delegation) : delegation := set_staked d (staked d - N.min n (staked d)).
Definition unstake_by (n t : N) (d : delegation) : delegation := set_cooldown (sub_stake n d) t.

Lemma put_del_with w k d g : del_of (dat (get w k)) = Ok d ->
  put_del w k (g d) = setd w k (with_del g (dat (get w k))).
Proof. intros H. unfold put_del. now rewrite (with_del_ok _ _ _ H). Qed.

Lemma staked_net e cx a n w w' : env_ok e -> staked_any e cx a n w w' ->
  chained e w (st_config a) (e_vault e (st_config a)) (st_stake a) (with_del (add_stake n))
    (limits (dat (get w (st_stake a)))) w'.
Proof.
  intros OK [c0 Hco Hc0 Hso Hbel []].
  assert (chained e w (st_config a) (e_vault e (st_config a)) (st_stake a) (with_del (add_stake n))
            (limits (dat (get w (st_stake a)))) w3) as C.
  { eapply chain_net; [exact H1| | |apply pframe_refl|auto|auto|exact H3].
    - rewrite H2. apply (put_del_with _ _ _ (add_stake n)). auto.
    - rewrite (with_del_ok _ _ _ Hd). eapply del_of_upd'; eauto. }
  eapply chained_pframe; [|eapply pframe_deposited; eauto|auto|auto].
  eapply chained_pframe; [|eapply pframe_transferred; eauto|auto|auto]. auto.
Qed.
Lemma unstaked_net e cx a n w w' : env_ok e -> unstaked_ok e cx a n w w' ->
  exists c, dat (get w (un_config a)) = DConfig c /\
  chained e w (un_config a) (e_vault e (un_config a)) (un_stake a)
    (with_del (unstake_by n (sat_add64 (c_now cx) (cfg_cooldown c))))
    (limits (dat (get w (un_stake a)))) w'.
Proof.
  intros OK []. exists c0. split; [auto|].
  assert (cfg_cooldown c = cfg_cooldown c0) as CC.
  { destruct H1. rewrite Hdat, N.eqb_refl in Hc. rewrite Hc0 in Hc1. injection Hc1 as <-. injection Hc as <-. reflexivity. }
  rewrite CC in H2.
  assert (chained e w (un_config a) (e_vault e (un_config a)) (un_stake a)
            (with_del (unstake_by n (sat_add64 (c_now cx) (cfg_cooldown c0))))
            (limits (dat (get w (un_stake a)))) w3) as C.
  { eapply chain_net; [exact H1| | |apply pframe_refl|auto|auto|exact H3].
    - rewrite H2. apply (put_del_with _ _ _ (unstake_by n (sat_add64 (c_now cx) (cfg_cooldown c0)))). auto.
    - rewrite (with_del_ok _ _ _ Hd). eapply del_of_upd'; eauto. }
  eapply chained_pframe; [|eapply pframe_transferred; eauto|auto|auto].
  eapply chained_pframe; [|eapply pframe_withdrawn; eauto|auto|auto]. auto.
Qed.
Lemma slashed_net e cx a n w w' : env_ok e -> slashed_any e cx a n w w' ->
  chained e w (sl_config a) (sl_vault_auth a) (sl_stake a) (with_del (slash_stake_by n))
    (limits (dat (get w (sl_stake a)))) w'.
Proof.
  intros OK [cc0 Hco Hcc0 Hso Hbel []].
  eapply (chain_net _ _ _ _ _ _ _ _ _ _ _ w2 w3); [exact H1| | | |auto|auto|exact H4].
  - rewrite H2. apply (put_del_with _ _ _ (slash_stake_by n)). auto.
  - rewrite (with_del_ok _ _ _ Hd). eapply del_of_upd'; eauto.
  - destruct H3 as [[_ ->]|(_ & _ & H3)]; [apply pframe_refl|eapply pframe_burned; eauto].
Qed.
Definition with_val (g : vstake -> vstake) (D : adata) : adata :=
  match D with DVal v => DVal (g v) | _ => D end.
Lemma overridden_net e cx a n w w' : overridden_ok e cx a n w w' ->
  exists v, dat (get w (ov_stake a)) = DVal v /\
  chained e w (ov_config a) (e_vault e (ov_config a)) (ov_stake a) (with_val (fun v => set_v_min v n))
    (N.max (v_total v) n) w'.
Proof.
  intros []. exists v0. split; [auto|].
  assert (v_total v = v_total v0) as <-.
  { destruct (harvested_net _ _ _ _ _ _ _ _ _ H1) as (c & d & h & rpt & sr & hr & RD & _ & _ & _ & _ & _ & S1 & _).
    rewrite Hv, Hv0 in S1. injection S1 as ->. reflexivity. }
  eapply chain_net; [exact H1| | |apply pframe_refl|auto|auto|exact H3].
  - rewrite H2, Hv. reflexivity.
  - rewrite Hv. reflexivity.
Qed.
Lemma revalidated_net e w ck vhr vs vk vauth f w' : own (get w ck) = e_prog e -> own (get w vk) = e_prog e ->
  revalidated e w ck vhr vs vk vauth f w' ->
  exists v t, dat (get w vk) = DVal v /\ f (v_total v) = Ok t /\
    chained e w ck vs vk (with_val (fun v => set_v_total v t)) (N.max t (v_min v)) w'.
Proof.
  intros OC OV [].
  destruct (harvested_net _ _ _ _ _ _ _ _ _ H1) as (c & d & h & rpt & sr & hr & RD & _ & _ & _ & _ & _ & S1 & _).
  destruct RD as [RC RDd _ _ _ _ _ _ _]. rewrite Hv, (with_del_ok _ _ _ RDd) in S1.
  destruct (dat (get w vk)) eqn:E; try discriminate RDd; try discriminate S1. simpl in S1. injection S1 as S1.
  exists v0, t. split; [auto|]. split; [rewrite S1 in Hf; exact Hf|].
  eapply (chain_net _ _ _ _ _ _ _ _ w1 _ _ w2 w2); [exact H1| | |apply pframe_refl|auto|auto|].
  - rewrite H2, Hv. reflexivity.
  - rewrite Hv. reflexivity.
  - rewrite S1 in H3. exact H3.
Qed.

(** A move: both accounts settled, [n] moved, both re-capped. *)
Inductive moved_net (e : env) (w : world) (ck sk tk : pubkey) (n : N) (w' : world) : Prop :=
| MovedNet s t ds dt c'
    (Hs : dat (get w sk) = DSol s) (Ht : dat (get w tk) = DSol t)
    (Ham : n <= staked (s_del s)) (Hb : staked (s_del t) + n < U64)
    (Hau : authority (s_del s) = authority (s_del t))
    (Hds : ds = Del (staked (s_del s) - n) (N.min (staked (s_del s) - n) (cap (s_lamports s)))
                    (cooldown (s_del s)) (authority (s_del s)) (vote (s_del s)) (last_holder ds) (last_stake ds))
    (Hdt : dt = Del (staked (s_del t) + n) (N.min (staked (s_del t) + n) (cap (s_lamports t)))
                    (N.max (cooldown (s_del s)) (cooldown (s_del t)))
                    (authority (s_del t)) (vote (s_del t)) (last_holder dt) (last_stake dt))
    (Hs' : dat (get w' sk) = DSol (set_s_del s ds)) (Ht' : dat (get w' tk) = DSol (set_s_del t dt))
    (Hc' : dat (get w' ck) = DConfig c')
    (Hla : last_stake dt = cfg_acc c')
    (Hlh : exists h, dat (get w (e_holder e (e_vault e ck))) = DHolder h /\ last_holder dt = h_last h)
    (Hown : forall k, own (get w' k) = own (get w k))
    (Hoth : forall k, k <> ck -> k <> sk -> k <> tk -> dat (get w' k) = dat (get w k)).

Lemma moved_net_ok e cx a n w w' : moved_ok e cx a n w w' ->
  moved_net e w (mv_config a) (mv_source a) (mv_dest a) n w'.
Proof.
  intros [].
  pose proof (harvested_sk _ _ _ _ _ _ _ _ _ H1) as N1. pose proof (harvested_sk _ _ _ _ _ _ _ _ _ H2) as N2.
  destruct (harvested_net _ _ _ _ _ _ _ _ _ H1) as (c & d & h & rpt & sr & hr & RD & _ & _ & O1 & _ & C1 & S1 & X1).
  destruct (harvested_net _ _ _ _ _ _ _ _ _ H2) as (c2 & d2 & h2 & rpt2 & sr2 & hr2 & RD2 & _ & _ & O2 & _ & C2 & S2 & X2).
  rewrite Hs0 in S1. simpl in S1. rewrite Ht0 in S2. simpl in S2.
  rewrite X2 in Hs by congruence. rewrite Hs in S1. injection S1 as S1. rewrite Ht in S2. injection S2 as S2.
  rewrite X1 in Ht0 by congruence.
  assert (dat (get w4 (mv_source a)) = DSol (set_s_del s (sub_stake n (s_del s)))) as DS4.
  { rewrite H4, H3. ws. rewrite N.eqb_refl. destruct (N.eqb_spec (mv_dest a) (mv_source a)); [congruence|].
    rewrite X2 by congruence. rewrite Hs. reflexivity. }
  assert (dat (get w4 (mv_dest a)) = DSol (set_s_del t (set_cooldown (set_staked (s_del t) (staked (s_del t) + n))
             (N.max (cooldown (s_del s)) (cooldown (s_del t)))))) as DT4.
  { rewrite H4, H3. ws. rewrite N.eqb_refl. destruct (N.eqb_spec (mv_source a) (mv_dest a)); [congruence|].
    rewrite Ht. reflexivity. }
  assert (dat (get w4 (mv_config a)) = DConfig (settle_cfg c2 rpt2 (lam (get w1 (mv_config a)) - (sr2 + hr2)))) as DC4.
  { rewrite H4, H3. ws. destruct (N.eqb_spec (mv_dest a) (mv_config a)); [congruence|].
    destruct (N.eqb_spec (mv_source a) (mv_config a)); [congruence|]. auto. }
  destruct H5 as [c5 d5 l5 Hc5 Hd5 Hm5 He5 Hb5 Ho5 Hdat5 _].
  destruct H6 as [c6 d6 l6 Hc6 Hd6 Hm6 He6 Hb6 Ho6 Hdat6 _].
  apply maxstake_ok in Hm5. apply maxstake_ok in Hm6. rewrite N.max_0_r in Hm5, Hm6.
  fold (cap (s_lamports s)) in Hm5. fold (cap (s_lamports t)) in Hm6.
  rewrite DS4 in Hd5. injection Hd5 as <-. rewrite DC4 in Hc5. injection Hc5 as <-.
  pose proof (Hdat5 (mv_dest a)) as T5. rewrite (proj2 (N.eqb_neq _ _) N2) in T5.
  destruct (N.eqb_spec (mv_source a) (mv_dest a)) as [|N3]; [congruence|]. rewrite DT4 in T5.
  rewrite T5 in Hd6. injection Hd6 as <-.
  pose proof (Hdat5 (mv_config a)) as K5. rewrite N.eqb_refl in K5. rewrite K5 in Hc6. injection Hc6 as <-.
  pose proof (Hdat5 (mv_source a)) as S5. rewrite (proj2 (N.eqb_neq _ _) N1), N.eqb_refl, DS4 in S5.
  pose proof (Hdat6 (mv_source a)) as S6. rewrite (proj2 (N.eqb_neq _ _) N1) in S6.
  destruct (N.eqb_spec (mv_dest a) (mv_source a)) as [|_]; [congruence|]. rewrite S5 in S6.
  pose proof (Hdat6 (mv_dest a)) as T6. rewrite (proj2 (N.eqb_neq _ _) N2), N.eqb_refl, T5 in T6.
  pose proof (Hdat6 (mv_config a)) as K6. rewrite N.eqb_refl in K6.
  subst s t l5 l6. simpl in *.
  eapply (MovedNet e w _ _ _ n w' s0 t0); [exact Hs0|exact Ht0|auto|auto|auto| | |exact S6|exact T6|exact K6| | | |].
  - reflexivity.
  - reflexivity.
  - reflexivity.
  - exists h2. split; [|reflexivity]. pose proof (rd_h _ _ _ _ _ _ _ _ _ _ _ RD2) as HH.
    rewrite X1 in HH; auto; intros E; rewrite E in HH; congruence.
  - intros k. rewrite Ho6, Ho5, H4, H3. ws. now rewrite O2, O1.
  - intros k K1 K2 K3. rewrite (Hdat6 k), (Hdat5 k), H4, H3. ws.
    repeat match goal with |- context [?x =? k] => destruct (N.eqb_spec x k); [congruence|] end.
    rewrite X2, X1; auto.
Qed.
