(** Invariant, part 4: effective amounts stay within their caps. *)
From Verif Require Import Base Types Layout Instr Math External Processor Runtime History Spec
  WorldLemmas Effects Handlers Evolve Sane Arith Totals Nets.

Definition capok (D : adata) : Prop :=
  match D with
  | DVal v => effective (v_del v) <= N.min (staked (v_del v)) (cap (N.max (v_total v) (v_min v)))
  | DSol s => effective (s_del s) = N.min (staked (s_del s)) (cap (s_lamports s))
  | _ => True
  end.
Definition caps (e : env) (w : world) : Prop := forall k, own (get w k) = e_prog e -> capok (dat (get w k)).

Lemma cap_mono l l' : l <= l' -> cap l <= cap l'.
Proof. intros H. unfold cap. apply N.div_le_mono; lia. Qed.
Lemma capok_exact D d : del_of D = Ok d -> effective d = N.min (staked d) (cap (limits D)) -> capok D.
Proof.
  destruct D; simpl; intros [= <-] H; [rewrite H; lia|]. now rewrite N.max_0_r in H.
Qed.
Lemma capok_settle c rpt h D : capok D -> capok (with_del (settle_del c rpt h) D).
Proof. destruct D; auto. Qed.
Lemma limits_with_del g D : limits (with_del g D) = limits D.
Proof. destruct D; auto. Qed.

Lemma caps_harvest e w ck vhr auth va sk keeper w' : caps e w ->
  harvested e w ck vhr auth va sk keeper w' -> caps e w'.
Proof.
  intros C H. destruct (harvested_net _ _ _ _ _ _ _ _ _ H)
    as (c & d & h & rpt & sr & hr & RD & _ & _ & O1 & _ & C1 & S1 & X1).
  intros k O. rewrite O1 in O. destruct (N.eq_dec k ck) as [->|N1]; [now rewrite C1|].
  destruct (N.eq_dec k sk) as [->|N2]; [rewrite S1; apply capok_settle; auto|]. rewrite X1; auto.
Qed.
Lemma caps_chained e w ck va sk F lim w' : caps e w -> chained e w ck va sk F lim w' ->
  (forall c rpt h, lim = limits (F (with_del (settle_del c rpt h) (dat (get w sk))))) -> caps e w'.
Proof.
  intros C [] L k O. rewrite Hown in O. destruct (N.eq_dec k ck) as [->|N1]; [now rewrite Hck|].
  destruct (N.eq_dec k sk) as [->|N2]; [|rewrite Hoth; auto].
  rewrite Hsk. eapply capok_exact; [eapply del_of_upd'; eauto|]. simpl. rewrite limits_upd, HD2, <- L. auto.
Qed.
Lemma caps_moved e w ck sk tk n w' : caps e w -> moved_net e w ck sk tk n w' -> caps e w'.
Proof.
  intros C [] k O. rewrite Hown in O. destruct (N.eq_dec k ck) as [->|N1]; [now rewrite Hc'|].
  destruct (N.eq_dec k sk) as [->|N2]; [rewrite Hs', Hds; reflexivity|].
  destruct (N.eq_dec k tk) as [->|N3]; [rewrite Ht', Hdt; reflexivity|]. rewrite Hoth; auto.
Qed.
Lemma caps_revalidated e w ck vhr vs vk vauth f w' : own (get w ck) = e_prog e -> own (get w vk) = e_prog e ->
  caps e w -> revalidated e w ck vhr vs vk vauth f w' -> caps e w'.
Proof.
  intros OC OV C H. destruct (revalidated_net _ _ _ _ _ _ _ _ _ OC OV H) as (v & t & D & _ & CH).
  eapply caps_chained; eauto. intros. rewrite D. reflexivity.
Qed.
Lemma caps_harvested_sol e cx a w w' : caps e w -> harvested_sol_ok e cx a w w' -> caps e w'.
Proof.
  intros C [].
  - eapply caps_harvest; eauto.
  - assert (caps e w1) as K1 by (eapply caps_harvest; eauto).
    pose proof (evolves_harvest _ _ _ _ _ _ _ _ _ H1) as E1.
    pose proof (evolves_left _ _ _ _ _ H2) as E2.
    pose proof (evolves_joined _ _ _ _ _ _ _ _ H3) as E3.
    assert (own (get w1 (hs_config a)) = e_prog e) as O1 by (rewrite (ev_own _ _ _ E1); auto).
    assert (own (get w2 (hs_config a)) = e_prog e) as O2 by (rewrite (ev_own _ _ _ E2); auto).
    assert (caps e w2) as K2. { destruct H2; [refine (caps_revalidated _ _ _ _ _ _ _ _ _ O1 Ho K1 H)|subst; auto]. }
    assert (caps e w3) as K3. { destruct H3; [refine (caps_revalidated _ _ _ _ _ _ _ _ _ O2 Ho K2 H)|subst; auto|subst; auto]. }
    destruct H5 as [c5 d5 l5 Hc5 Hd5 Hm5 He5 Hb5 Ho5 Hdat5 _].
    assert (dat (get w4 (hs_stake a)) = DSol (SStake (set_vote (s_del s3) cv) cs (s_native s3))) as D4.
    { rewrite H4. ws. now rewrite N.eqb_refl. }
    rewrite D4 in Hd5. injection Hd5 as <-. apply maxstake_ok in Hm5. rewrite N.max_0_r in Hm5. subst l5.
    intros k O. rewrite Hdat5, D4. destruct (hs_config a =? k); [exact I|].
    destruct (N.eqb_spec (hs_stake a) k) as [<-|NE]; [reflexivity|].
    rewrite H4. ws. destruct (N.eqb_spec (hs_stake a) k); [congruence|]. apply K3.
    rewrite Ho5, H4 in O. wsi O. auto.
Qed.
Lemma caps_did e cx w w' c : env_ok e -> caps e w -> did e cx w w' c -> caps e w'.
Proof.
  intros OK C D. destruct D.
  - destruct H. intros k O. rewrite Hd. destruct (N.eqb_spec (ic_config a) k) as [|NK]; [exact I|].
    rewrite Ho in O. destruct (N.eqb_spec (ic_vault_pda a) k) as [EE|]; [rewrite <- EE, Hve; exact I|auto].
  - destruct H. intros k O. rewrite Hd. rewrite Ho in O. destruct (N.eqb_spec (iv_stake a) k) as [|NK]; auto. simpl. lia.
  - eapply caps_chained; [eauto|eapply staked_net; eauto|]. intros. now rewrite !limits_with_del.
  - pose proof (psteps_held _ _ _ _ _ OK H) as _. pose proof (evolves_held _ _ _ _ _ OK H) as EV. destruct H.
    pose proof (pframe_rharvested _ _ _ _ _ _ _ _ _ _ OK H2) as [PO PD].
    destruct H1 as [c1 rpt Hc1 _ _ Hw1]. intros k O. rewrite (ev_own _ _ _ EV) in O. rewrite H4. ws.
    destruct (N.eqb_spec (hh_config a) k) as [<-|NE]; [exact I|]. rewrite H3. ws.
    rewrite PD.
    + rewrite Hw1. ws. destruct (N.eqb_spec (hh_config a) k); [congruence|auto].
    + rewrite Hw1. ws. auto.
  - destruct H. eapply caps_harvest; eauto.
  - eapply caps_chained; [eauto|eapply slashed_net; eauto|]. intros. now rewrite !limits_with_del.
  - destruct H. subst w'. intros k O. wsi O. ws. destruct (_ =? _); auto. exact I.
  - destruct H. subst w'. intros k O. wsi O. ws. destruct (_ =? _); auto. exact I.
  - destruct H. intros k O. rewrite Hd. rewrite Ho in O. 
    destruct (N.eqb_spec (is_val a) k) as [<-|].
    + pose proof (C (is_val a) Hvo) as CV. rewrite Hv in CV. simpl in *.
      pose proof (cap_mono (N.max (v_total v) (v_min v)) (N.max (v_total v + vw_effective vw) (v_min v))). lia.
    + destruct (N.eqb_spec (is_stake a) k) as [|NK]; auto. simpl. lia.
  - eapply caps_chained; [eauto|eapply staked_net; eauto|]. intros. now rewrite !limits_with_del.
  - eapply caps_harvested_sol; eauto.
  - destruct (unstaked_net _ _ _ _ _ _ OK H) as (c0 & _ & CH).
    eapply caps_chained; eauto. intros. now rewrite !limits_with_del.
  - eapply caps_chained; [eauto|eapply slashed_net; eauto|]. intros. now rewrite !limits_with_del.
  - eapply caps_moved; [eauto|eapply moved_net_ok; eauto].
  - destruct (overridden_net _ _ _ _ _ _ H) as (v & D & CH).
    eapply caps_chained; eauto. intros. rewrite D. reflexivity.
  - destruct H. subst w'. intros k O. wsi O. ws. destruct (N.eqb_spec (sy_stake a) k) as [<-|]; auto.
    specialize (C _ O). rewrite Hv in *. exact C.
Qed.
Lemma caps_rely e w w' : caps e w -> rely e w w' -> caps e w'.
Proof.
  intros C R k O. destruct (rely_back _ _ _ k R O) as [[n ->]|(E & B & _)]; [exact I|]. rewrite B. auto.
Qed.
