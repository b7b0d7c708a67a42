(** Invariant, part 5: a validator's recorded SOL is the sum over its stakers. *)
From Verif Require Import Base Types Layout Instr Math External Processor Runtime History Spec
  WorldLemmas Effects Handlers Evolve Sane Arith Totals Nets.

(** The part of the contents the invariant talks about. *)
Definition totd (D : adata) : option (N * N + N * N * N) :=
  match D with
  | DVal v => Some (inl (vote (v_del v), v_total v))
  | DSol s => Some (inr (vote (s_del s), s_lamports s, s_native s))
  | _ => None
  end.
Definition tframe (e : env) (w w' : world) : Prop :=
  (forall k, own (get w' k) = own (get w k)) /\
  (forall k, own (get w k) = e_prog e -> totd (dat (get w' k)) = totd (dat (get w k))).
Lemma tframe_refl e w : tframe e w w.
Proof. split; auto. Qed.
Lemma tframe_trans e w1 w2 w3 : tframe e w1 w2 -> tframe e w2 w3 -> tframe e w1 w3.
Proof.
  intros [A1 A2] [B1 B2]. split.
  - intros k. rewrite B1. auto.
  - intros k O. rewrite B2; [auto|]. now rewrite A1.
Qed.
Lemma totd_val D x y : totd D = Some (inl (x, y)) -> exists v, D = DVal v /\ vote (v_del v) = x /\ v_total v = y.
Proof. destruct D; simpl; intros [= <- <-]; eauto. Qed.
Lemma totd_sol D x y z : totd D = Some (inr (x, y, z)) ->
  exists s, D = DSol s /\ vote (s_del s) = x /\ s_lamports s = y /\ s_native s = z.
Proof. destruct D; simpl; intros [= <- <- <-]; eauto 6. Qed.
Lemma totd_upd D x y : del_of D = Ok x -> vote y = vote x -> totd (upd_del D y) = totd D.
Proof. destruct D; simpl; intros [= <-] ->; reflexivity. Qed.
Lemma totd_with_del g D : (forall d, vote (g d) = vote d) -> totd (with_del g D) = totd D.
Proof. intros G. unfold with_del. destruct D; simpl; rewrite ?G; reflexivity. Qed.

Definition lam_of (e : env) (ck v k : pubkey) (o : N) (t : option (N * N + N * N * N)) : N :=
  if o =? e_prog e then
    match t with
    | Some (inr (x, l, n)) => if (k =? e_sol e n ck) && (x =? v) then l else 0
    | _ => 0
    end
  else 0.
Lemma lamports_in_of e ck v k a : lamports_in e ck v k a = lam_of e ck v k (own a) (totd (dat a)).
Proof. unfold lamports_in, lam_of. destruct (_ =? _); auto. destruct (dat a); reflexivity. Qed.
Lemma lamports_zero e ck v k : lamports_in e ck v k no_account = 0.
Proof. unfold lamports_in. now destruct (_ =? _). Qed.
Lemma staker_lamports_eq e w w' ck v :
  (forall k, lamports_in e ck v k (get w' k) = lamports_in e ck v k (get w k)) ->
  staker_lamports e w' ck v = staker_lamports e w ck v.
Proof. intros H. unfold staker_lamports. apply wsum_eq; auto using lamports_zero. Qed.
Lemma staker_lamports_upd e w w' ck v k0 :
  (forall k, k <> k0 -> lamports_in e ck v k (get w' k) = lamports_in e ck v k (get w k)) ->
  staker_lamports e w' ck v + lamports_in e ck v k0 (get w k0) =
  staker_lamports e w ck v + lamports_in e ck v k0 (get w' k0).
Proof.
  intros H. unfold staker_lamports.
  apply (wsum_upd (lamports_in e ck v) (lamports_in e ck v)); auto using lamports_zero.
Qed.
Lemma lamports_in_tframe e w w' ck v k : tframe e w w' ->
  lamports_in e ck v k (get w' k) = lamports_in e ck v k (get w k).
Proof.
  intros [A B]. rewrite !lamports_in_of, A. unfold lam_of.
  destruct (N.eqb_spec (own (get w k)) (e_prog e)); auto. now rewrite B.
Qed.

(** The sum, with what is currently missing on either side for config [ck]. *)
Definition totals_off (e : env) (w : world) (ck : pubkey) (a b : N -> N) : Prop :=
  forall k v ck', val_at e w k v -> k = e_val e (vote (v_del v)) ck' ->
    v_total v + (if ck' =? ck then a (vote (v_del v)) else 0) =
    staker_lamports e w ck' (vote (v_del v)) + (if ck' =? ck then b (vote (v_del v)) else 0).
Definition stakers_ok (e : env) (w : world) : Prop :=
  forall k s ck, sol_at e w k s -> k = e_sol e (s_native s) ck ->
    (vote (s_del s) = 0 -> s_lamports s = 0) /\
    (vote (s_del s) <> 0 -> own (get w (e_val e (vote (s_del s)) ck)) = e_prog e).
Definition totals (e : env) (w : world) : Prop :=
  (forall k v ck, val_at e w k v -> k = e_val e (vote (v_del v)) ck ->
    v_total v = staker_lamports e w ck (vote (v_del v))) /\ stakers_ok e w.

Lemma totals_off_tframe e w w' ck a b : totals_off e w ck a b -> tframe e w w' -> totals_off e w' ck a b.
Proof.
  intros T F k v ck' [O D] K. pose proof F as [A B]. rewrite A in O. specialize (B k O). rewrite D in B.
  symmetry in B. apply totd_val in B as (v0 & D0 & V0 & T0).
  rewrite (staker_lamports_eq e w w') by (intros; now apply lamports_in_tframe).
  rewrite <- T0. rewrite <- V0 in *. apply (T k v0 ck'); auto. split; auto.
Qed.
Lemma stakers_ok_tframe e w w' : stakers_ok e w -> tframe e w w' -> stakers_ok e w'.
Proof.
  intros T F k s ck [O D] K. pose proof F as [A B]. rewrite A in O. specialize (B k O). rewrite D in B.
  symmetry in B. apply totd_sol in B as (s0 & D0 & V0 & L0 & N0). rewrite A.
  rewrite <- V0, <- L0. apply (T k s0 ck); [split; auto|congruence].
Qed.
Lemma totals_split e w ck : totals e w <-> totals_off e w ck (fun _ => 0) (fun _ => 0) /\ stakers_ok e w.
Proof.
  unfold totals, totals_off. split; intros [A B]; (split; [|auto]); intros k v ck' V K; specialize (A k v ck' V K);
    destruct (ck' =? ck); lia.
Qed.
Lemma totals_tframe e w w' : totals e w -> tframe e w w' -> totals e w'.
Proof.
  intros T F. apply (totals_split e w' 0). apply (totals_split e w 0) in T as [A B].
  split; [eapply totals_off_tframe|eapply stakers_ok_tframe]; eauto.
Qed.

(** Steps that change nothing here. *)
Lemma tframe_harvest e w ck vhr auth va sk keeper w' :
  harvested e w ck vhr auth va sk keeper w' -> tframe e w w'.
Proof.
  intros H. destruct (harvested_net _ _ _ _ _ _ _ _ _ H)
    as (c & d & h & rpt & sr & hr & RD & _ & _ & O1 & _ & C1 & S1 & X1). split; [auto|].
  intros k O. destruct (N.eq_dec k ck) as [->|N1]; [rewrite C1, (rd_c _ _ _ _ _ _ _ _ _ _ _ RD); auto|].
  destruct (N.eq_dec k sk) as [->|N2]; [rewrite S1; apply totd_with_del; auto|]. rewrite X1; auto.
Qed.
Lemma tframe_resync e w ck sk lim w' : resynced w ck sk lim w' -> tframe e w w'.
Proof.
  intros []. split; [auto|]. intros k O. rewrite Hdat. destruct (N.eqb_spec ck k) as [<-|]; [now rewrite Hc|].
  destruct (N.eqb_spec sk k) as [<-|]; auto. eapply totd_upd; eauto.
Qed.
Lemma tframe_chained e w ck va sk F lim w' : chained e w ck va sk F lim w' ->
  (forall c rpt h, totd (F (with_del (settle_del c rpt h) (dat (get w sk)))) = totd (dat (get w sk))) ->
  tframe e w w'.
Proof.
  intros [] T. split; [auto|]. intros k O. destruct (N.eq_dec k ck) as [->|N1].
  { now rewrite Hck, (rd_c _ _ _ _ _ _ _ _ _ _ _ Hrd). }
  destruct (N.eq_dec k sk) as [->|N2]; [|rewrite Hoth; auto].
  rewrite Hsk. erewrite totd_upd; eauto. now rewrite HD2.
Qed.
Lemma tframe_moved e w ck sk tk n w' c : dat (get w ck) = DConfig c -> moved_net e w ck sk tk n w' -> tframe e w w'.
Proof.
  intros C []. split; [auto|]. intros k O. destruct (N.eq_dec k ck) as [->|N1]; [now rewrite Hc', C|].
  destruct (N.eq_dec k sk) as [->|N2]; [rewrite Hs', Hds, Hs; reflexivity|].
  destruct (N.eq_dec k tk) as [->|N3]; [rewrite Ht', Hdt, Ht; reflexivity|]. rewrite Hoth; auto.
Qed.
Lemma tframe_setd e w k D : totd D = totd (dat (get w k)) -> tframe e w (setd w k D).
Proof. intros T. split; intros; ws; auto. destruct (N.eqb_spec k k0) as [<-|]; auto. Qed.

(** A validator's total is adjusted. *)
Lemma revalidated_tot e w ck vhr vs vk vt vauth f w' : env_ok e -> sane e w ->
  own (get w ck) = e_prog e -> own (get w vk) = e_prog e -> vk = e_val e vt ck ->
  revalidated e w ck vhr vs vk vauth f w' ->
  exists v v' t, dat (get w vk) = DVal v /\ vote (v_del v) = vt /\ f (v_total v) = Ok t /\
    dat (get w' vk) = DVal v' /\ vote (v_del v') = vt /\ v_total v' = t /\
    (forall k, own (get w' k) = own (get w k)) /\
    (forall k, own (get w k) = e_prog e -> k <> vk -> totd (dat (get w' k)) = totd (dat (get w k))).
Proof.
  intros OK S OC OV K H. destruct (revalidated_net _ _ _ _ _ _ _ _ _ OC OV H) as (v & t & D & F & []).
  destruct (sane_val_belongs _ _ _ _ _ _ OK S OV D K) as [VV _].
  rewrite D in HD2. simpl in HD2. rewrite HD2 in Hd2, Hsk. simpl in Hd2, Hsk. injection Hd2 as <-.
  eexists v, _, t. split; [auto|]. split; [auto|]. split; [auto|]. split; [exact Hsk|].
  split; [exact VV|]. split; [reflexivity|]. split; [auto|].
  intros k O N2. destruct (N.eq_dec k ck) as [->|N1]; [now rewrite Hck, (rd_c _ _ _ _ _ _ _ _ _ _ _ Hrd)|].
  rewrite Hoth; auto.
Qed.
Lemma lamports_in_same e w w' ck v k : own (get w' k) = own (get w k) ->
  (own (get w k) = e_prog e -> totd (dat (get w' k)) = totd (dat (get w k))) ->
  lamports_in e ck v k (get w' k) = lamports_in e ck v k (get w k).
Proof.
  intros A B. rewrite !lamports_in_of, A. unfold lam_of.
  destruct (N.eqb_spec (own (get w k)) (e_prog e)); auto. now rewrite B.
Qed.
Lemma lamports_in_val e ck v k a x : dat a = DVal x -> lamports_in e ck v k a = 0.
Proof. intros D. unfold lamports_in. rewrite D. now destruct (_ =? _). Qed.

Lemma revalidated_totals e w ck vhr vs vk vt vauth f w' a b a' b' : env_ok e -> sane e w ->
  own (get w ck) = e_prog e -> own (get w vk) = e_prog e -> vk = e_val e vt ck ->
  revalidated e w ck vhr vs vk vauth f w' ->
  (forall x t sl, f x = Ok t -> x + a vt = sl + b vt -> t + a' vt = sl + b' vt) ->
  (forall u, u <> vt -> a' u = a u /\ b' u = b u) ->
  totals_off e w ck a b /\ stakers_ok e w -> totals_off e w' ck a' b' /\ stakers_ok e w'.
Proof.
  intros OK S OC OV K H ADJ OTH [T ST].
  destruct (revalidated_tot _ _ _ _ _ _ _ _ _ _ OK S OC OV K H) as (v & v' & t & D & VV & F & D' & VV' & VT & OO & TT).
  assert (forall ck' u, staker_lamports e w' ck' u = staker_lamports e w ck' u) as SL.
  { intros. apply staker_lamports_eq. intros k. destruct (N.eq_dec k vk) as [->|NE].
    - rewrite (lamports_in_val _ _ _ _ _ _ D), (lamports_in_val _ _ _ _ _ _ D'). auto.
    - apply lamports_in_same; auto. }
  split.
  - intros k x ck' [O X] KK. rewrite SL. rewrite OO in O. destruct (N.eq_dec k vk) as [->|NE].
    + rewrite D' in X. injection X as <-. rewrite VV' in *.
      assert (ck' = ck) as -> by (rewrite K in KK; apply (ok_val_inj e OK) in KK as [_ KK]; auto).
      rewrite N.eqb_refl, VT. eapply ADJ; eauto.
      pose proof (T vk v ck (conj O D)) as T1. rewrite VV, N.eqb_refl in T1. auto.
    + specialize (TT k O NE). rewrite X in TT. symmetry in TT. apply totd_val in TT as (v0 & D0 & V0 & T0).
      pose proof (T k v0 ck' (conj O D0)) as T1. rewrite V0, T0 in T1. specialize (T1 KK).
      destruct (N.eqb_spec ck' ck) as [->|]; auto.
      destruct (OTH (vote (v_del x))) as [-> ->]; auto. intros EE. apply NE. rewrite K, KK. congruence.
  - intros k s ck' [O X] KK. rewrite OO in O. assert (k <> vk) as NE.
    { intros ->. rewrite D' in X. discriminate. }
    specialize (TT k O NE). rewrite X in TT. symmetry in TT. apply totd_sol in TT as (s0 & D0 & V0 & L0 & N0).
    rewrite OO. rewrite <- V0, <- L0. apply (ST k s0 ck'); [split; auto|congruence].
Qed.

Definition at_vote (x l : N) (v : N) : N := if v =? x then l else 0.
Lemma left_totals e w a s w' : env_ok e -> sane e w -> own (get w (hs_config a)) = e_prog e ->
  left_ok e w a s w' ->
  totals_off e w (hs_config a) (fun _ => 0) (fun _ => 0) /\ stakers_ok e w ->
  totals_off e w' (hs_config a) (at_vote (vote (s_del s)) (s_lamports s)) (fun _ => 0) /\ stakers_ok e w'.
Proof.
  intros OK S OC [] T.
  - refine (revalidated_totals _ _ _ _ _ _ _ _ _ _ _ _ _ _ OK S OC Ho Hk H _ _ T).
    + intros x t sl F E. apply csub_ok in F as [L ->]. unfold at_vote. rewrite N.eqb_refl. lia.
    + intros u NE. unfold at_vote. destruct (N.eqb_spec u (vote (s_del s))); [congruence|auto].
  - subst w'. destruct T as [T ST]. split; [|auto]. intros k v ck' V K. specialize (T k v ck' V K).
    unfold at_vote. rewrite Hl. destruct (_ =? _); auto. destruct (_ =? _); auto.
Qed.
Lemma joined_totals e w a cv cs w' cv' cs' x l : env_ok e -> sane e w -> own (get w (hs_config a)) = e_prog e ->
  (cv = 0 -> cs = 0) -> joined_ok e w a cv cs w' cv' cs' ->
  totals_off e w (hs_config a) (at_vote x l) (fun _ => 0) /\ stakers_ok e w ->
  totals_off e w' (hs_config a) (at_vote x l) (at_vote cv' cs') /\ stakers_ok e w' /\
  (cv' = 0 -> cs' = 0) /\ (cv' <> 0 -> own (get w' (e_val e cv' (hs_config a))) = e_prog e).
Proof.
  intros OK S OC Z J T.
  assert (forall W, totals_off e W (hs_config a) (at_vote x l) (fun _ => 0) ->
     totals_off e W (hs_config a) (at_vote x l) (at_vote 0 0)) as ZZ.
  { intros W TT k v ck' V K. specialize (TT k v ck' V K). unfold at_vote in *.
    destruct (_ =? _); auto. destruct (vote (v_del v) =? 0); auto. }
  destruct J.
  - subst cv' cs'.
    destruct (revalidated_totals _ _ _ _ _ _ _ _ _ _ (at_vote x l) (fun _ => 0) (at_vote x l) (at_vote cv cs)
      OK S OC Ho Hk H) as [A B]; auto.
    + intros y t sl F E. apply add64_ok in F as [-> _]. unfold at_vote in *. rewrite N.eqb_refl. lia.
    + intros u NE. unfold at_vote. destruct (N.eqb_spec u cv); [congruence|auto].
    + split; [auto|]. split; [auto|]. split; [congruence|]. intros _. rewrite <- Hk.
      rewrite (ev_own _ _ _ (evolves_revalidated _ _ _ _ _ _ _ _ _ H)). auto.
  - subst w' cv' cs'. destruct T as [T ST]. split; [auto|]. split; [auto|]. split; [auto|congruence].
  - subst w' cv' cs'. rewrite (Z Hv). destruct T as [T ST]. split; [auto|]. split; [auto|]. split; [auto|congruence].
Qed.

Lemma totals_harvested_sol e cx a w w' : env_ok e -> wf_ctx e cx -> sane e w -> totals e w ->
  harvested_sol_ok e cx a w w' -> totals e w'.
Proof.
  intros OK (_ & _ & WV) S T [].
  - eapply totals_tframe; eauto. eapply tframe_harvest; eauto.
  - pose proof (evolves_harvest _ _ _ _ _ _ _ _ _ H1) as E1.
    pose proof (sane_evolves _ _ _ S E1) as S1.
    pose proof (evolves_left _ _ _ _ _ H2) as E2.
    pose proof (sane_evolves _ _ _ S1 E2) as S2.
    pose proof (evolves_joined _ _ _ _ _ _ _ _ H3) as E3.
    assert (own (get w1 (hs_config a)) = e_prog e) as O1 by (rewrite (ev_own _ _ _ E1); auto).
    assert (own (get w2 (hs_config a)) = e_prog e) as O2 by (rewrite (ev_own _ _ _ E2); auto).
    assert (totals e w1) as T1. { eapply totals_tframe; eauto. eapply tframe_harvest; eauto. }
    apply (totals_split e w1 (hs_config a)) in T1.
    pose proof (left_totals _ _ _ _ _ OK S1 O1 H2 T1) as T2.
    destruct (WV vw Hvw) as [_ WZ].
    destruct (joined_totals _ _ _ _ _ _ _ _ _ _ OK S2 O2 WZ H3 T2) as (T3 & ST3 & Z3 & OV3).
    apply totals_tframe with w4; [|eapply tframe_resync; eauto].
    assert (own (get w3 (hs_stake a)) = e_prog e) as OS3.
    { rewrite (ev_own _ _ _ E3), (ev_own _ _ _ E2), (ev_own _ _ _ E1). auto. }
    (* the staker's record is still the one read before *)
    assert (totd (dat (get w1 (hs_stake a))) = totd (dat (get w3 (hs_stake a)))) as TS.
    { assert (own (get w1 (hs_stake a)) = e_prog e) as OS1 by (rewrite (ev_own _ _ _ E1); auto).
      assert (own (get w2 (hs_stake a)) = e_prog e) as OS2 by (rewrite (ev_own _ _ _ E2); auto).
      assert (totd (dat (get w2 (hs_stake a))) = totd (dat (get w1 (hs_stake a)))) as X1.
      { destruct H2; [|now subst].
        destruct (revalidated_tot _ _ _ _ _ _ _ _ _ _ OK S1 O1 Ho Hk0 H) as (v & v' & t & D & _ & _ & _ & _ & _ & _ & TT).
        apply TT; auto. intros EE. rewrite EE, D in Hs1. discriminate. }
      assert (totd (dat (get w3 (hs_stake a))) = totd (dat (get w2 (hs_stake a)))) as X2; [|congruence].
      destruct H3; [|now subst|now subst].
      destruct (revalidated_tot _ _ _ _ _ _ _ _ _ _ OK S2 O2 Ho Hk0 H) as (v & v' & t & D & _ & _ & _ & _ & _ & _ & TT).
      apply TT; auto. intros EE. rewrite Hs1 in X1. rewrite EE, D in X1. discriminate. }
    rewrite Hs1, Hs3 in TS. simpl in TS. injection TS as TV TL TN.
    assert (hs_stake a = e_sol e (s_native s3) (hs_config a)) as K3.
    { rewrite <- TN. pose proof (ev_id _ _ _ E1 (hs_stake a) Hso) as I. rewrite Hs, Hs1 in I. simpl in I.
      destruct I as [-> _]. exact Hk. }
    assert (forall ck' v, staker_lamports e w4 ck' v + (if ck' =? hs_config a then at_vote (vote (s_del s1)) (s_lamports s1) v else 0) =
      staker_lamports e w3 ck' v + (if ck' =? hs_config a then at_vote cv cs v else 0)) as SL.
    { intros ck' v. pose proof (staker_lamports_upd e w3 w4 ck' v (hs_stake a)) as U.
      assert (lamports_in e ck' v (hs_stake a) (get w3 (hs_stake a)) =
              if ck' =? hs_config a then at_vote (vote (s_del s1)) (s_lamports s1) v else 0) as L3.
      { unfold lamports_in, at_vote. rewrite OS3, N.eqb_refl, Hs3. rewrite <- TV, <- TL.
        destruct (N.eqb_spec ck' (hs_config a)) as [->|NE].
        - rewrite K3, N.eqb_refl. simpl. rewrite N.eqb_sym. reflexivity.
        - destruct (N.eqb_spec (hs_stake a) (e_sol e (s_native s3) ck')) as [EE|]; auto.
          rewrite K3 in EE. apply (ok_sol_inj e OK) in EE as [_ EE]. congruence. }
      assert (lamports_in e ck' v (hs_stake a) (get w4 (hs_stake a)) =
              if ck' =? hs_config a then at_vote cv cs v else 0) as L4.
      { unfold lamports_in, at_vote. rewrite H4. ws. rewrite OS3, !N.eqb_refl. simpl.
        destruct (N.eqb_spec ck' (hs_config a)) as [->|NE].
        - rewrite K3, N.eqb_refl. simpl. rewrite N.eqb_sym. reflexivity.
        - destruct (N.eqb_spec (hs_stake a) (e_sol e (s_native s3) ck')) as [EE|]; auto.
          rewrite K3 in EE. apply (ok_sol_inj e OK) in EE as [_ EE]. congruence. }
      rewrite L3, L4 in U. apply U. intros k NE. apply lamports_in_same; rewrite H4; ws; auto.
      intros _. destruct (N.eqb_spec (hs_stake a) k); congruence. }
    split.
    + intros k v ck' [O D] K. rewrite H4 in O, D. wsi O. wsi D.
      destruct (N.eqb_spec (hs_stake a) k); [discriminate|].
      pose proof (T3 k v ck' (conj O D) K) as A. specialize (SL ck' (vote (v_del v))).
      destruct (ck' =? hs_config a); lia.
    + intros k s' ck' [O D] K. rewrite H4 in O, D. wsi O. wsi D. rewrite H4. ws.
      destruct (N.eqb_spec (hs_stake a) k) as [EE|].
      * injection D as <-. simpl in *. rewrite <- EE, K3 in K. apply (ok_sol_inj e OK) in K as [_ <-]. auto.
      * apply (ST3 k s' ck'); auto. split; auto.
Qed.

Lemma totals_did e cx w w' c : env_ok e -> wf_ctx e cx -> sane e w -> totals e w -> did e cx w w' c -> totals e w'.
Proof.
  intros OK WC S T D. pose proof (prog_ids e OK) as (P0 & _). destruct D.
  - destruct (config_created_facts _ _ _ _ _ _ _ _ _ _ _ OK S H) as (bs & D & NB & O & NP & NE). destruct H.
    assert (forall k, own (get w' k) = e_prog e -> own (get w k) = e_prog e \/ ic_vault_pda a = k) as OB.
    { intros k. rewrite Ho. destruct (N.eqb_spec (ic_vault_pda a) k); auto. }
    assert (forall k, own (get w' k) = e_prog e -> totd (dat (get w' k)) = totd (dat (get w k))) as TT.
    { intros k _. rewrite Hd. destruct (N.eqb_spec (ic_config a) k) as [<-|]; [now rewrite D|auto]. }
    assert (forall ck v, staker_lamports e w' ck v = staker_lamports e w ck v) as SL.
    { intros. apply staker_lamports_eq. intros k. rewrite !lamports_in_of. unfold lam_of.
      destruct (N.eqb_spec (own (get w k)) (e_prog e)) as [E1|E1];
      destruct (N.eqb_spec (own (get w' k)) (e_prog e)) as [E2|E2]; auto.
      - now rewrite TT.
      - exfalso. apply E2. rewrite Ho. destruct (_ =? _); auto.
      - rewrite TT by auto. destruct (OB k E2) as [|<-]; [contradiction|]. now rewrite Hve. }
    destruct T as [T1 T2]. split.
    + intros k v ck [O1 D1] K. rewrite SL. apply (T1 k v ck); auto.
      rewrite Hd in D1. destruct (N.eqb_spec (ic_config a) k); [discriminate|].
      destruct (OB k O1) as [|EE]; [split; auto|]. exfalso. rewrite <- EE in D1. congruence.
    + intros k s0 ck [O1 D1] K. rewrite Hd in D1. destruct (N.eqb_spec (ic_config a) k); [discriminate|].
      destruct (OB k O1) as [OK1|EE]; [|exfalso; rewrite <- EE in D1; congruence].
      destruct (T2 k s0 ck (conj OK1 D1) K) as [A B]. split; [auto|]. intros V. rewrite Ho.
      destruct (_ =? _); auto.
  - destruct H.
    assert (forall ck v, staker_lamports e w' ck v = staker_lamports e w ck v) as SL.
    { intros. apply staker_lamports_eq. intros k. unfold lamports_in. rewrite Ho, Hd.
      destruct (N.eqb_spec (iv_stake a) k) as [<-|]; auto. rewrite Hso, Hsd, N.eqb_refl.
      now destruct (0 =? e_prog e). }
    assert (staker_lamports e w (iv_config a) (iv_vote a) = 0) as Z.
    { rewrite (staker_lamports_eq e ∅ w); [unfold staker_lamports; apply wsum_empty|].
      intros k. rewrite get_empty, lamports_zero. unfold lamports_in.
      destruct (N.eqb_spec (own (get w k)) (e_prog e)) as [E|E]; auto.
      destruct (dat (get w k)) eqn:D; auto.
      destruct (N.eqb_spec k (e_sol e (s_native s) (iv_config a))) as [K|]; auto. simpl.
      destruct (N.eqb_spec (vote (s_del s)) (iv_vote a)) as [V|]; auto.
      destruct (proj2 T k s (iv_config a) (conj E D) K) as [A B].
      destruct (N.eq_dec (vote (s_del s)) 0) as [E0|E0]; [auto|]. specialize (B E0). rewrite V, <- Hk in B. congruence. }
    destruct T as [T1 T2]. split.
    + intros k v ck [O1 D1] K. rewrite SL. rewrite Ho in O1. rewrite Hd in D1.
      destruct (N.eqb_spec (iv_stake a) k) as [EE|]; [|apply (T1 k v ck); auto; split; auto].
      injection D1 as <-. simpl in *. rewrite <- EE, Hk in K. apply (ok_val_inj e OK) in K as [_ <-]. auto.
    + intros k s ck [O1 D1] K. rewrite Ho in O1. rewrite Hd in D1. rewrite Ho.
      destruct (N.eqb_spec (iv_stake a) k) as [EE|]; [discriminate|].
      destruct (T2 k s ck (conj O1 D1) K) as [A B]. split; [auto|]. intros V. destruct (_ =? _); auto.
  - eapply totals_tframe; eauto. eapply tframe_chained; [eapply staked_net; eauto|].
    intros. rewrite !totd_with_del; auto.
  - eapply totals_tframe; eauto. pose proof (evolves_held _ _ _ _ _ OK H) as EV. destruct H.
    pose proof (pframe_rharvested _ _ _ _ _ _ _ _ _ _ OK H2) as [PO PD].
    destruct H1 as [c1 rpt Hc1 _ _ Hw1]. split; [apply (ev_own _ _ _ EV)|]. intros k O. rewrite H4. ws.
    destruct (N.eqb_spec (hh_config a) k) as [<-|NE]; [now rewrite Hc0|]. rewrite H3. ws.
    rewrite PD.
    + rewrite Hw1. ws. destruct (N.eqb_spec (hh_config a) k); [congruence|auto].
    + rewrite Hw1. ws. auto.
  - destruct H. eapply totals_tframe; eauto. eapply tframe_harvest; eauto.
  - eapply totals_tframe; eauto. eapply tframe_chained; [eapply slashed_net; eauto|].
    intros. rewrite !totd_with_del; auto.
  - destruct H. subst w'. eapply totals_tframe; eauto. apply tframe_setd. rewrite Hc. reflexivity.
  - destruct H. subst w'. eapply totals_tframe; eauto. apply tframe_setd. rewrite Hc. reflexivity.
  - destruct H.
    assert (is_val a <> is_stake a) as NV by (intros EE; rewrite EE in Hv; congruence).
    assert (dat (get w' (is_stake a)) = DSol (SStake (Del 0 0 0 au (vw_vote vw) 0 0) (vw_effective vw) (is_native a))) as DS.
    { rewrite Hd, N.eqb_refl. destruct (N.eqb_spec (is_val a) (is_stake a)); congruence. }
    destruct (sane_val_belongs _ _ _ _ _ _ OK S Hvo Hv Hvk) as [VV _].
    assert (forall ck v0, staker_lamports e w' ck v0 = staker_lamports e w ck v0 +
       (if ck =? is_config a then at_vote (vw_vote vw) (vw_effective vw) v0 else 0)) as SL.
    { intros ck v0. pose proof (staker_lamports_upd e w w' ck v0 (is_stake a)) as U.
      assert (lamports_in e ck v0 (is_stake a) (get w (is_stake a)) = 0) as L1.
      { unfold lamports_in. rewrite Hso, Hsd. now destruct (_ =? _). }
      assert (lamports_in e ck v0 (is_stake a) (get w' (is_stake a)) =
              if ck =? is_config a then at_vote (vw_vote vw) (vw_effective vw) v0 else 0) as L2.
      { unfold lamports_in, at_vote. rewrite Ho, DS, !N.eqb_refl. simpl.
        destruct (N.eqb_spec ck (is_config a)) as [->|NE].
        - rewrite Hk, N.eqb_refl. simpl. rewrite N.eqb_sym. reflexivity.
        - destruct (N.eqb_spec (is_stake a) (e_sol e (is_native a) ck)) as [EE|]; auto.
          rewrite Hk in EE. apply (ok_sol_inj e OK) in EE as [_ EE]. congruence. }
      rewrite L1, L2 in U. rewrite N.add_0_r in U. apply U. intros k NE. unfold lamports_in. rewrite Ho, Hd.
      destruct (N.eqb_spec (is_stake a) k); [congruence|].
      destruct (N.eqb_spec (is_val a) k) as [<-|]; auto. now rewrite Hv. }
    destruct T as [T1 T2]. split.
    + intros k v1 ck [O1 D1] K. rewrite SL. rewrite Ho in O1. rewrite Hd in D1. unfold at_vote.
      destruct (N.eqb_spec (is_val a) k) as [EE|NE].
      * injection D1 as <-. simpl in *. rewrite VV in *. rewrite <- EE, Hvk in K.
        apply (ok_val_inj e OK) in K as [_ <-]. rewrite !N.eqb_refl.
        pose proof (T1 (is_val a) v (is_config a) (conj Hvo Hv)) as T3. rewrite VV in T3. rewrite (T3 Hvk). auto.
      * destruct (N.eqb_spec (is_stake a) k); [discriminate|].
        rewrite (T1 k v1 ck (conj O1 D1) K). destruct (N.eqb_spec ck (is_config a)) as [->|]; [|lia].
        destruct (N.eqb_spec (vote (v_del v1)) (vw_vote vw)) as [EV|]; [|lia]. congruence.
    + intros k s ck [O1 D1] K. rewrite Ho in O1. rewrite Hd in D1. rewrite Ho.
      destruct (N.eqb_spec (is_val a) k) as [EE|NE]; [discriminate|].
      destruct (N.eqb_spec (is_stake a) k) as [EE|NE2].
      * injection D1 as <-. simpl in *. rewrite <- EE, Hk in K. apply (ok_sol_inj e OK) in K as [_ <-].
        split; [congruence|]. intros _. rewrite <- Hvk. destruct (_ =? _); auto.
      * destruct (T2 k s ck (conj O1 D1) K) as [A B]. split; [auto|]. intros V. destruct (_ =? _); auto.
  - eapply totals_tframe; eauto. eapply tframe_chained; [eapply staked_net; eauto|].
    intros. rewrite !totd_with_del; auto.
  - eapply totals_harvested_sol; eauto.
  - destruct (unstaked_net _ _ _ _ _ _ OK H) as (c0 & _ & CH).
    eapply totals_tframe; eauto. eapply tframe_chained; [eauto|]. intros. rewrite !totd_with_del; auto.
  - eapply totals_tframe; eauto. eapply tframe_chained; [eapply slashed_net; eauto|].
    intros. rewrite !totd_with_del; auto.
  - eapply totals_tframe; eauto. pose proof (moved_net_ok _ _ _ _ _ _ H) as M. destruct H. eapply tframe_moved; eauto.
  - destruct (overridden_net _ _ _ _ _ _ H) as (v & D & CH).
    eapply totals_tframe; eauto. eapply tframe_chained; [eauto|]. intros. rewrite D. reflexivity.
  - destruct H. subst w'. eapply totals_tframe; eauto. apply tframe_setd. rewrite Hv. reflexivity.
Qed.

Lemma totals_rely e w w' : env_ok e -> sane e w -> totals e w -> rely e w w' -> totals e w'.
Proof.
  intros OK S [T1 T2] R.
  assert (forall k, own (get w' k) = e_prog e ->
    (own (get w k) = e_prog e /\ dat (get w' k) = dat (get w k)) \/ totd (dat (get w' k)) = None) as B.
  { intros k O. destruct (rely_back _ _ _ k R O) as [[n ->]|(E & D & _)]; auto. }
  assert (forall vt ck, own (get w (e_val e vt ck)) = e_prog e -> own (get w' (e_val e vt ck)) = e_prog e) as A.
  { intros vt ck O. destruct (rely_owned _ _ _ R _ O) as [(? & _)|(_ & [n Z] & _)]; auto. exfalso.
    destruct (sane_raw _ _ S _ _ O Z) as [_ P]. destruct P as [_ [c E]]; [left; eauto|].
    now apply (ok_val_vault _ OK) in E. }
  assert (forall ck v, staker_lamports e w' ck v = staker_lamports e w ck v) as SL.
  { intros. apply staker_lamports_eq. intros k. rewrite !lamports_in_of. unfold lam_of.
    destruct (N.eqb_spec (own (get w k)) (e_prog e)) as [E1|E1].
    - destruct (rely_owned _ _ _ R k E1) as [(-> & -> & _)|(_ & [n Z] & X & _)]; [now rewrite N.eqb_refl|].
      rewrite Z. destruct (N.eqb_spec (own (get w' k)) (e_prog e)) as [E2|E2]; auto. destruct (X E2) as [m ->]. auto.
    - destruct (N.eqb_spec (own (get w' k)) (e_prog e)) as [E2|E2]; auto.
      destruct (B k E2) as [[E3 _]|E3]; [contradiction|now rewrite E3]. }
  split.
  - intros k v ck [O D] K. rewrite SL. destruct (B k O) as [[E E2]|E]; [|rewrite D in E; discriminate].
    apply (T1 k v ck); auto. split; congruence.
  - intros k s ck [O D] K. destruct (B k O) as [[E E2]|E]; [|rewrite D in E; discriminate].
    destruct (T2 k s ck) as [X Y]; [split; congruence|auto|]. split; [auto|].
    intros V. apply A. auto.
Qed.
