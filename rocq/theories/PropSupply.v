(** C93: tokens are conserved, and delegates stay within their allowance. *)
From Verif Require Import Base Types Layout Instr Math External Processor Runtime History Spec SpecSupply
  WorldLemmas Effects Handlers Evolve Sane Wf Arith Totals Nets Caps Deposits Inv Tokens PropTokens PropAuth Demo.

(** ** Tokens in existence *)
Lemma tokens_of_none e m : tokens_of e m no_account = 0.
Proof. unfold tokens_of. destruct (own no_account =? e_token e); reflexivity. Qed.
Lemma existence_eq e w w' m : (forall k, tokens_of e m (get w' k) = tokens_of e m (get w k)) ->
  in_existence e w' m = in_existence e w m.
Proof. intros H. unfold in_existence. apply wsum_eq; auto using tokens_of_none. Qed.
Lemma existence_upd e w w' m x : (forall k, k <> x -> tokens_of e m (get w' k) = tokens_of e m (get w k)) ->
  in_existence e w' m + tokens_of e m (get w x) = in_existence e w m + tokens_of e m (get w' x).
Proof.
  intros H. unfold in_existence.
  apply (wsum_upd (fun _ a => tokens_of e m a) (fun _ a => tokens_of e m a)); auto using tokens_of_none.
Qed.
Lemma cframe_existence e w w' m : cframe w w' -> in_existence e w' m = in_existence e w m.
Proof.
  intros F. apply existence_eq. intros k. unfold tokens_of. destruct (F k) as [[-> ->]|[A B]]; auto.
  destruct (dat (get w k)), (dat (get w' k)); simpl in *; try tauto; destruct (_ =? _), (_ =? _); auto.
Qed.
Lemma transferred_existence e sig w src mnt dst auth n w' m : transferred e sig w src mnt dst auth n w' ->
  in_existence e w' m = in_existence e w m.
Proof.
  intros []. apply token_authorise_ok in Hau as (_ & _ & _ & A2 & A3 & _).
  destruct (N.eqb_spec src dst) as [->|NE].
  { apply existence_eq. intros k. unfold tokens_of. now rewrite Ho, Hdat. }
  set (w1 := setd w src (DToken (set_t_amount s' (t_amount s - n)))).
  pose proof (existence_upd e w w1 m src) as U1. pose proof (existence_upd e w1 w' m dst) as U2.
  assert (forall k, k <> src -> get w1 k = get w k) as G1.
  { intros k K. unfold w1. unfold setd. rewrite get_put. destruct (N.eqb_spec src k); congruence. }
  assert (own (get w1 src) = own (get w src) /\ dat (get w1 src) = DToken (set_t_amount s' (t_amount s - n))) as [O1 D1].
  { unfold w1. ws. now rewrite N.eqb_refl. }
  specialize (U1 ltac:(intros k K; now rewrite G1)).
  assert (forall k, k <> dst -> tokens_of e m (get w' k) = tokens_of e m (get w1 k)) as P.
  { intros k K. unfold tokens_of. rewrite Ho, Hdat. destruct (N.eqb_spec src k) as [<-|N1].
    - now rewrite O1, D1.
    - rewrite G1 by auto. destruct (N.eqb_spec dst k); congruence. }
  specialize (U2 P). clear P. rewrite (G1 dst) in U2 by auto. unfold tokens_of in U1, U2.
  rewrite O1, D1, Hs, Hso, N.eqb_refl in U1. rewrite Ho, Hdat, Hd, Hdo, N.eqb_refl in U2.
  rewrite (proj2 (N.eqb_neq src dst)), N.eqb_refl in U2 by auto. simpl in U1, U2. rewrite A2, Hms in U1. rewrite Hmd in U2.
  clear - U1 U2 Ham. destruct (mnt =? m); lia.
Qed.
Lemma burned_existence e sig w src mnt auth n w' m : burned e sig w src mnt auth n w' ->
  in_existence e w' m + supply w m = in_existence e w m + supply w' m.
Proof.
  intros B. pose proof (proj2 (burned_shift _ _ _ _ _ _ _ _ B) m) as S. destruct B.
  apply token_authorise_ok in Hau as (_ & _ & _ & A2 & A3 & _). assert (src <> mnt) as NM by (intros ->; congruence).
  pose proof (existence_upd e w w' m src) as U.
  assert (forall k, k <> src -> tokens_of e m (get w' k) = tokens_of e m (get w k)) as P.
  { intros k K. unfold tokens_of. rewrite Ho, Hdat. rewrite (proj2 (N.eqb_neq src k)) by auto.
    destruct (N.eqb_spec mnt k) as [<-|]; auto. rewrite Hm. destruct (_ =? _); auto. }
  specialize (U P). unfold tokens_of in U. rewrite Ho, Hdat, Hs, Hso, !N.eqb_refl in U. simpl in U. rewrite A2, Hms in U.
  unfold at_key in S. clear - U S Ham. rewrite (N.eqb_sym m mnt) in S. destruct (mnt =? m); lia.
Qed.
Lemma deposited_existence e sig w pool ptok vhr tacc mnt owner n acc w' m :
  deposited_ok e sig w pool ptok vhr tacc mnt owner n acc w' -> in_existence e w' m = in_existence e w m.
Proof.
  intros []. assert (cframe w w1) as F1 by (subst w1; apply cframe_setd; [rewrite Hh|]; exact I).
  assert (cframe w2 w') as F2 by (apply cframe_same; auto).
  rewrite (cframe_existence _ _ _ m F2), (transferred_existence _ _ _ _ _ _ _ _ _ m Hw2). now apply cframe_existence.
Qed.
Lemma withdrawn_existence e sig w pool ptok vhr tacc mnt owner n acc w' m :
  withdrawn_ok e sig w pool ptok vhr tacc mnt owner n acc w' -> in_existence e w' m = in_existence e w m.
Proof.
  intros []. assert (cframe w w1) as F1 by (subst w1; apply cframe_setd; [rewrite Hh|]; exact I).
  assert (cframe w2 w') as F2 by (apply cframe_same; auto).
  rewrite (cframe_existence _ _ _ m F2), (transferred_existence _ _ _ _ _ _ _ _ _ m Hw2). now apply cframe_existence.
Qed.
Lemma slashed_existence e cx a n w w' m : slashed_ok e cx a n w w' ->
  in_existence e w' m + supply w m = in_existence e w m + supply w' m.
Proof.
  intros []. assert (cframe w w2) as F1.
  { eapply cframe_trans; [eapply cframe_harvest; eauto|]. subst w2. eapply cframe_put_del; eauto. }
  apply cframe_resync in H4 as F2. rewrite (cframe_existence _ _ _ m F2), (cframe_supply _ _ m F2).
  rewrite <- (cframe_existence _ _ _ m F1), <- (cframe_supply _ _ m F1). destruct H3 as [[_ ->]|(_ & _ & B)]; [lia|].
  eapply burned_existence; eauto.
Qed.

(** What an instruction destroys of a mint's tokens is exactly what it takes from the
    mint's supply; it creates none. *)
Theorem C93_tokens_conserved e cx c w w' m : env_ok e -> reachable e w -> run e cx c w = Ok w' ->
  in_existence e w' m + supply w m = in_existence e w m + supply w' m /\
  in_existence e w' m <= in_existence e w m /\
  (slashing c = None -> in_existence e w' m = in_existence e w m).
Proof.
  intros OK R RUN. pose proof (C13_supply _ _ _ _ _ m OK R RUN) as [SL SS].
  assert (in_existence e w' m + supply w m = in_existence e w m + supply w' m) as EQ.
  { pose proof (inv_reachable _ _ OK R) as I. apply run_ok in RUN as (_ & D & _). destruct (moves c) eqn:M.
    - assert (forall a n, staked_any e cx a n w w' -> in_existence e w' m + supply w m = in_existence e w m + supply w' m) as P1.
      { intros a n [c0 _ _ _ _ U]. rewrite (proj2 (staked_tokens _ _ _ _ _ _ U) m).
        apply staked_before in U as (w3 & w4 & F & T & D' & _).
        rewrite (deposited_existence _ _ _ _ _ _ _ _ _ _ _ _ m D'), (transferred_existence _ _ _ _ _ _ _ _ _ m T).
        now rewrite (cframe_existence _ _ _ m F). }
      assert (forall a n, slashed_any e cx a n w w' -> in_existence e w' m + supply w m = in_existence e w m + supply w' m) as P2.
      { intros a n [c0 _ _ _ _ U]. eapply slashed_existence; eauto. }
      destruct D; try discriminate M; eauto.
      rewrite (proj2 (unstaked_tokens _ _ _ _ _ _ H (i_wf _ _ I) (i_backed _ _ I _)) m).
      apply unstaked_before in H as (w3 & w4 & F & W & T & _).
      rewrite (transferred_existence _ _ _ _ _ _ _ _ _ m T), (withdrawn_existence _ _ _ _ _ _ _ _ _ _ _ _ m W).
      now rewrite (cframe_existence _ _ _ m F).
    - assert (cframe w w') as F.
      { eapply cframe_did; eauto. intros k' O. eapply owned_plain; eauto using i_sane. }
      now rewrite (cframe_existence _ _ _ m F), (cframe_supply _ _ m F). }
  split; [exact EQ|]. split; [clear - EQ SL; lia|]. intros NS.
  assert (~ supply w' m < supply w m) as NL by (intros L; now apply (SS L)). clear - EQ SL NL. lia.
Qed.
Print Assumptions C93_tokens_conserved.

(** ** Delegates *)
Lemma authorised_by sig t auth n t' : token_authorise sig t auth n = Ok t' ->
  (t_delegate t = Some auth /\ n <= t_delegated t /\ t' = spend_delegated t n) \/ (t' = t /\ auth = t_owner t).
Proof.
  unfold token_authorise. intros H.
  assert (forall (H : (let* _ := require ((auth =? t_owner t) && sig auth) TokenError in Ok t) = Ok t'),
    t' = t /\ auth = t_owner t) as OWN.
  { intros H'. stepg H' G. apply andb_true_iff in G as [G1 G2]. b2p G1. injection H' as <-. auto. }
  destruct (t_delegate t) as [d|] eqn:D; [|auto]. destruct (N.eqb_spec d auth) as [->|]; [|auto].
  stepg H G. stepg H G1. b2p G1. injection H as <-. auto.
Qed.
Lemma spent_drew t x n : t_delegate t = Some x -> 0 < n -> n <= t_delegated t -> n <= t_amount t ->
  drew x n t (set_t_amount (spend_delegated t n) (t_amount t - n)).
Proof. intros D P A B. constructor; simpl; try lia; auto. now rewrite D. Qed.
Lemma received_none t : received 0 t t.
Proof. constructor; auto; lia. Qed.
Lemma transferred_token e sig w src mnt dst auth n w' k t : transferred e sig w src mnt dst auth n w' -> 0 < n ->
  dat (get w k) = DToken t -> auth <> t_owner t \/ k <> src ->
  exists t', dat (get w' k) = DToken t' /\
    ((k <> src \/ src = dst) /\ received (if k =? dst then if src =? dst then 0 else n else 0) t t' \/
     k = src /\ src <> dst /\ sig auth = true /\ drew auth n t t').
Proof.
  intros [] P DT NO. rewrite Hdat. destruct (N.eqb_spec src dst) as [->|NE].
  { exists t. split; [auto|]. left. split; [auto|]. destruct (_ =? _); apply received_none. }
  destruct (N.eqb_spec src k) as [<-|N1].
  - rewrite Hs in DT. injection DT as ->. eexists. split; [reflexivity|]. right. split; [auto|]. split; [auto|].
    split; [now apply token_authorise_ok in Hau as (A & _)|].
    apply authorised_by in Hau as [(A & B & ->)|[_ A]]; [now apply spent_drew|]. destruct NO; congruence.
  - destruct (N.eqb_spec dst k) as [<-|N2].
    + rewrite Hd in DT. injection DT as ->. eexists. split; [reflexivity|]. left. split; [auto|].
      rewrite N.eqb_refl. constructor; auto.
    + exists t. split; [auto|]. left. split; [auto|]. rewrite (proj2 (N.eqb_neq k dst)) by auto. apply received_none.
Qed.
Lemma received_more n1 n2 t t1 t2 : received n1 t t1 -> received n2 t1 t2 -> received (n1 + n2) t t2.
Proof. intros [] []. constructor; try congruence. lia. Qed.

(** An account of an owner who did not sign only receives tokens, or its delegate, who
    signed or is a vault authority of this program, draws on the allowance. *)
Theorem C93_delegate_draws e cx c w w' k t : env_ok e -> reachable e w -> run e cx c w = Ok w' ->
  own (get w k) = e_token e -> dat (get w k) = DToken t -> outsider e (t_owner t) -> signed cx (t_owner t) = false ->
  own (get w' k) = e_token e /\ exists t', dat (get w' k) = DToken t' /\
    ((exists n, received n t t') \/
     (exists x n, drew x n t t' /\ (signed cx x = true \/ exists ck, x = e_vault e ck))).
Proof.
  intros OK R RUN O DT [NV NP] NS. pose proof (inv_reachable _ _ OK R) as I. apply run_ok in RUN as (_ & D & _).
  assert (forall a n, staked_any e cx a n w w' -> own (get w' k) = e_token e /\ exists t', dat (get w' k) = DToken t' /\
    ((exists n, received n t t') \/ (exists x n, drew x n t t' /\ (signed cx x = true \/ exists ck, x = e_vault e ck)))) as P1.
  { intros a n [c0 _ _ _ _ U]. apply staked_before in U as (w3 & w4 & F & T & D' & V & P).
    apply (cframe_token' _ _ _ _ F) in DT as [O3 D3]. pose proof T as T'.
    destruct (transferred_token _ _ _ _ _ _ _ _ _ k t T P D3) as (t1 & D4 & E4).
    { left. intros A. destruct T. apply token_authorise_ok in Hau as (SG & _). congruence. }
    assert (own (get w4 k) = e_token e) as O4 by (destruct T; rewrite Ho; congruence).
    assert (t_owner t1 = t_owner t) as OW by (destruct E4 as [[_ []]|(_ & _ & _ & [])]; auto).
    destruct D'. assert (dat (get w1 k) = DToken t1 /\ own (get w1 k) = e_token e) as [D5 O5].
    { subst w1. ws. destruct (N.eqb_spec (st_vhr a) k) as [EE|]; [rewrite EE in Hh; congruence|auto]. }
    assert (k <> st_vault a) as K1.
    { intros ->. destruct Hta as (tt & X1 & _ & X3 & _). rewrite D4 in X1. injection X1 as <-. apply (NV (st_config a)). congruence. }
    assert (k <> st_ptok a) as K2.
    { intros ->. destruct Hpt as (tt & X1 & _ & X3 & _). rewrite D4 in X1. injection X1 as <-. apply (NP (st_mint a)). congruence. }
    destruct (transferred_token _ _ _ _ _ _ _ _ _ k t1 Hw2 P D5) as (t2 & D6 & E6); [auto|].
    split; [rewrite Ho; destruct Hw2; rewrite Ho0; congruence|]. exists t2. split; [rewrite Hdat; auto|].
    destruct E6 as [[_ E6]|(X & _)]; [|congruence]. rewrite (proj2 (N.eqb_neq k (st_ptok a))) in E6 by auto.
    destruct E4 as [[_ E4]|(_ & _ & SG & E4)].
    - left. eexists. eapply received_more; eauto.
    - right. exists (st_source_auth a), n. split; [|auto]. clear - E4 E6. destruct E4, E6. constructor; try congruence; try lia.
      rewrite rc_delegate, dr_left, rc_allowance. reflexivity. }
  assert (forall a n, slashed_any e cx a n w w' -> own (get w' k) = e_token e /\ exists t', dat (get w' k) = DToken t' /\
    ((exists n, received n t t') \/ (exists x n, drew x n t t' /\ (signed cx x = true \/ exists ck, x = e_vault e ck)))) as P2.
  { intros a n [c0 Hco Hc0 _ _ U]. destruct U.
    assert (sl_vault_auth a = e_vault e (sl_config a)) as VA.
    { eapply vault_auth_eq; eauto using i_sane. split; [exact Hco|]. congruence. }
    assert (cframe w w2) as F1.
    { eapply cframe_trans; [eapply cframe_harvest; eauto|]. subst w2. eapply cframe_put_del; eauto. }
    apply cframe_resync in H4 as F2. apply (cframe_token' _ _ _ _ F1) in DT as [O2 D2]. destruct H3 as [[_ ->]|(P & _ & B)].
    - apply (cframe_token' _ _ _ _ F2) in D2 as [O3 D3]. split; [congruence|]. exists t. split; [auto|]. left. exists 0. apply received_none.
    - assert (own (get w3 k) = e_token e /\ exists t', dat (get w3 k) = DToken t' /\
        (received 0 t t' \/ drew (sl_vault_auth a) (N.min n (staked d)) t t')) as [O3 (t' & D3 & E)].
      { destruct B. rewrite Ho, Hdat. split; [congruence|]. destruct (N.eqb_spec (sl_vault a) k) as [EE|].
        - rewrite EE, D2 in Hs. injection Hs as <-. eexists. split; [reflexivity|]. right.
          apply authorised_by in Hau0 as [(A & B & ->)|[_ A]]; [now apply spent_drew|]. exfalso. apply (NV (sl_config a)). congruence.
        - destruct (N.eqb_spec (sl_mint a) k) as [EE|]; [congruence|]. exists t. split; [auto|]. left. apply received_none. }
      apply (cframe_token' _ _ _ _ F2) in D3 as [O4 D4]. split; [congruence|]. exists t'. split; [auto|].
      destruct E as [E|E]; [left; eauto|right]. eexists _, _. split; [exact E|]. right. eauto. }
  destruct (moves c) eqn:M.
  - destruct D; try discriminate M; eauto.
    pose proof (proj1 (unstaked_tokens _ _ _ _ _ _ H (i_wf _ _ I) (i_backed _ _ I _)) k) as TK.
    apply unstaked_before in H as (w3 & w4 & F & W & T & V & ND & _).
    apply (cframe_token' _ _ _ _ F) in DT as [O3 D3]. destruct W.
    assert (k <> un_vault a) as K1.
    { intros ->. destruct Hta as (tt & X1 & _ & X3 & _). rewrite D3 in X1. injection X1 as <-. apply (NV (un_config a)). congruence. }
    assert (k <> un_ptok a) as K2.
    { intros ->. destruct Hpt as (tt & X1 & _ & X3 & _). rewrite D3 in X1. injection X1 as <-. apply (NP (un_mint a)). congruence. }
    assert (dat (get w4 k) = DToken t /\ own (get w4 k) = e_token e) as [D4 O4].
    { rewrite Hdat, Ho. destruct Hw2. rewrite Hdat0, Ho0. subst w1. ws.
      destruct (N.eqb_spec (un_vhr a) k) as [EE|]; [rewrite EE in Hh; congruence|].
      rewrite (proj2 (N.eqb_neq (un_ptok a) k)), (proj2 (N.eqb_neq (un_vault a) k)) by auto.
      destruct (_ =? _); split; auto; congruence. }
    clear - T D4 O4 K1 ND. destruct T. rewrite Ho, Hdat. split; [auto|].
    rewrite (proj2 (N.eqb_neq _ _) ND), (proj2 (N.eqb_neq (un_vault a) k)) by auto.
    destruct (N.eqb_spec (un_dest a) k) as [EE|].
    + rewrite EE, D4 in Hd. injection Hd as <-. eexists. split; [reflexivity|]. left. exists n. constructor; auto.
    + exists t. split; [auto|]. left. exists 0. apply received_none.
  - assert (cframe w w') as F.
    { eapply cframe_did; eauto. intros k' O'. eapply owned_plain; eauto using i_sane. }
    apply (cframe_token' _ _ _ _ F) in DT as [O3 D3]. split; [congruence|]. exists t. split; [auto|]. left. exists 0. apply received_none.
Qed.
Print Assumptions C93_delegate_draws.

(** However many instructions run without the owner's signature, together they take at
    most the allowance, and leave at most the rest of it. *)
Theorem C93_within_allowance e w tr w' k t : env_ok e -> reachable e w -> steps e w tr w' ->
  own (get w k) = e_token e -> dat (get w k) = DToken t -> outsider e (t_owner t) ->
  (forall ev, In ev tr -> unsigned_by (t_owner t) ev) ->
  own (get w' k) = e_token e /\ exists t', dat (get w' k) = DToken t' /\ t_owner t' = t_owner t /\
    t_amount t + allowance t' <= t_amount t' + allowance t /\ allowance t' <= allowance t /\
    (t_delegate t' = t_delegate t \/ t_delegate t' = None).
Proof.
  intros OK R ST O DT OUT. induction ST as [w|w tr w1 ev w2 ST IH S]; intros US.
  { split; [auto|]. exists t. repeat split; auto; lia. }
  destruct IH as (O1 & t1 & D1 & W1 & A1 & B1 & C1); auto.
  { intros ev' X. apply US, in_app_iff. auto. }
  assert (unsigned_by (t_owner t) ev) as U by (apply US, in_app_iff; right; now left).
  assert (reachable e w1) as R1 by (eapply reachable_steps; eauto).
  destruct S as [w1 cx c w2 _ _ RUN|w1 w2 _]; [|contradiction]. simpl in U.
  rewrite <- W1 in OUT, U. destruct (C93_delegate_draws _ _ _ _ _ _ _ OK R1 RUN O1 D1 OUT U) as (O2 & t2 & D2 & E).
  split; [auto|]. exists t2. split; [auto|].
  destruct E as [(n & [])|(x & n & [] & _)].
  - assert (allowance t2 = allowance t1) as AE by (unfold allowance; now rewrite rc_delegate, rc_allowance).
    split; [congruence|]. rewrite AE, rc_delegate. split; [lia|]. auto.
  - assert (allowance t2 + n = allowance t1) as AE.
    { unfold allowance. rewrite dr_delegate, dr_left, dr_allowance. destruct (N.eqb_spec (t_delegated t2) 0); lia. }
    split; [congruence|]. split; [lia|]. split; [lia|]. rewrite dr_left. destruct (_ =? 0); [auto|].
    destruct C1; [left|right]; congruence.
Qed.
Print Assumptions C93_within_allowance.

(** The owner of a token account names a delegate. *)
Lemma rely_approve e w k t t' : env_ok e -> wf_world w -> wf_data (DToken t') -> own (get w k) = e_token e -> ~ pda e k ->
  dat (get w k) = DToken t -> (forall ck, t_owner t <> e_vault e ck) -> rely e w (setd w k (DToken t')).
Proof.
  intros ID WF WD O NP DT NV. assert (e_token e <> e_prog e) as NT by (destruct (prog_ids e ID) as (_ & X & _); auto). split.
  - intros k' O'. ws. left. destruct (N.eqb_spec k k') as [<-|]; [congruence|]. repeat split; auto; lia.
  - intros k' N1 N2. wsi N2. congruence.
  - intros k' P _. ws. destruct (N.eqb_spec k k') as [<-|]; [contradiction|]. repeat split; auto; lia.
  - intros k' t0 c OT D0 T1 T2 T3. ws. split; [auto|]. destruct (N.eqb_spec k k') as [<-|].
    + rewrite DT in D0. injection D0 as <-. exfalso. eapply NV; eauto.
    + exists t0. repeat split; auto; lia.
  - intros c. ws. destruct (N.eqb_spec k (e_holder e (e_vault e c))) as [<-|]; [right|left; auto].
    split; [intros h E; congruence|]. intros h E. discriminate E.
  - intros k'. split; ws; [apply (wf_lam _ _ WF)|]. destruct (k =? k'); auto. apply (wf_dat _ _ WF).
Qed.
(** Bob lets Carol spend 1500 tokens; Carol stakes 1000 of them and then the rest. *)
Definition approved : world :=
  setd (at_end (removelast setup)) btok (DToken (Tok kmint bob 500000 (Some carol) 1500 None false)).
Definition approved_end (l : list act) : option world := after approved l.
Definition approved_tok (l : list act) : option adata :=
  match approved_end l with Some w => Some (dat (get w btok)) | None => None end.
Lemma bob_outsider : outsider denv bob.
Proof. split; intros x E; vm_compute in E; destruct x; discriminate E. Qed.
Example C93_case : let s n := stake_sol nat1 bob btok carol n 0 in
  reachable denv approved /\ outsider denv bob /\
  dat (get approved btok) = DToken (Tok kmint bob 500000 (Some carol) 1500 None false) /\
  approved_tok [s 1000] = Some (DToken (Tok kmint bob 499000 (Some carol) 500 None false)) /\
  approved_tok [s 1000; s 500] = Some (DToken (Tok kmint bob 498500 None 0 None false)) /\
  approved_tok [s 1000; s 501] = None /\ approved_tok [s 1000; s 500; s 1] = None /\
  match approved_end [s 1000; s 500] with
  | Some w => in_existence denv w kmint = in_existence denv approved kmint
  | None => False
  end /\
  in_existence denv (at_end before_slash) kmint =
    50 + in_existence denv (at_end (before_slash ++ [slash_sol nat2 bob 50])) kmint.
Proof.
  cbv zeta. split; [|split; [apply bob_outsider|]].
  2: do 6 (split; [vm_compute; reflexivity|]); vm_compute; reflexivity.
  assert (reachable denv (at_end (removelast setup))) as R by (apply at_end_reachable; vm_compute; reflexivity).
  apply (reachable_step denv (at_end (removelast setup)) Other); [exact R|]. apply step_other. unfold approved.
  apply (rely_approve denv (at_end (removelast setup)) btok (Tok kmint bob 500000 None 0 None false)).
  - apply denv_ok.
  - apply (i_wf _ _ (inv_reachable _ _ denv_ok R)).
  - vm_compute. reflexivity.
  - vm_compute. reflexivity.
  - apply denv_not_pda. vm_compute. reflexivity.
  - vm_compute. reflexivity.
  - apply bob_outsider.
Qed.
