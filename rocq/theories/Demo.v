(** A concrete deployment and histories in it, used by the examples beside the
    theorems. *)
From Verif Require Import Base Types Layout Instr Math External Processor Runtime History Spec
  WorldLemmas Effects Handlers Evolve Sane Wf Arith Totals Nets Caps Stakers Deposits Inv.

(** Derived addresses are numbers 1 to 7 modulo 8, ordinary keys multiples of 8. *)
Definition pair (a b : N) : N := (a + b) * (a + b) + a.
Lemma pair_inj a b a' b' : pair a b = pair a' b' -> a = a' /\ b = b'.
Proof.
  unfold pair. intros H. assert (a + b = a' + b') as E.
  { destruct (N.lt_trichotomy (a + b) (a' + b')) as [L|[E|L]]; [|auto|]; exfalso; nia. }
  rewrite E in H. lia.
Qed.
Local Arguments N.mul : simpl never.
Local Arguments N.add : simpl never.
Local Arguments pair : simpl never.
Definition denv : env :=
  Env 8 16 24 32 40
      (fun c => 8 * c + 3) (fun _ => 255) (fun c b => if b =? 255 then Some (8 * c + 3) else None)
      (fun v c => 8 * pair v c + 1) (fun n c => 8 * pair n c + 2) (fun a c => 8 * pair a c + 4)
      (fun s h => 8 * pair s h + 7) (fun o => 8 * o + 5) (fun m => 8 * m + 6)
      (fun len => (128 + len) * 6960) (fun _ => []).
Lemma denv_pda k : pda denv k -> exists q r, k = 8 * q + r /\ 1 <= r <= 4.
Proof.
  intros [(v & c & ->)|[(n & c & ->)|[(c & ->)|(a & c & ->)]]]; simpl; eexists _, _; (split; [reflexivity|lia]).
Qed.
Definition is_pda (k : N) : bool := (1 <=? k mod 8) && (k mod 8 <=? 4).
Lemma denv_not_pda k : is_pda k = false -> ~ pda denv k.
Proof.
  intros H P. destruct (denv_pda k P) as (q & r & -> & R). unfold is_pda in H.
  replace ((8 * q + r) mod 8) with r in H by (rewrite N.add_comm, N.mul_comm, N.mod_add, N.mod_small; lia).
  destruct (N.leb_spec 1 r), (N.leb_spec r 4); simpl in H; try discriminate; lia.
Qed.
Lemma denv_ok : env_ok denv.
Proof.
  split; simpl; intros.
  - repeat constructor; rewrite ?elem_of_cons, elem_of_nil; lia.
  - reflexivity.
  - apply pair_inj. lia.
  - apply pair_inj. lia.
  - lia.
  - lia.
  - lia.
  - lia.
  - lia.
  - lia.
  - lia.
  - lia.
  - apply denv_not_pda. unfold is_pda. replace ((8 * o + 5) mod 8) with 5; [reflexivity|].
    rewrite N.add_comm, N.mul_comm, N.mod_add; [reflexivity|lia].
  - apply denv_not_pda. unfold is_pda. replace ((8 * m + 6) mod 8) with 6; [reflexivity|].
    rewrite N.add_comm, N.mul_comm, N.mod_add; [reflexivity|lia].
  - lia.
  - reflexivity.
Qed.

(** ** Other events *)
Lemma rely_pay e w src dst n : wf_world w -> own (get w src) <> e_prog e -> ~ pda e src ->
  src <> dst -> n <= lam (get w src) -> lam (get w dst) + n < U64 ->
  rely e w (setl (setl w src (lam (get w src) - n)) dst (lam (get w dst) + n)).
Proof.
  intros WF O NP NE L B. split.
  - intros k OK. ws. left. repeat split; auto. destruct (N.eqb_spec dst k) as [<-|]; [lia|].
    destruct (N.eqb_spec src k) as [<-|]; [congruence|lia].
  - intros k N1 N2. wsi N2. congruence.
  - intros k P _. ws. repeat split; auto. destruct (N.eqb_spec dst k) as [<-|]; [lia|].
    destruct (N.eqb_spec src k) as [<-|]; [contradiction|lia].
  - intros k t c OT DT H1 H2 H3. ws. split; [auto|]. exists t. repeat split; auto; lia.
  - intros c. left. ws. auto.
  - intros k. split; ws; [|apply (wf_dat _ _ WF)]. destruct (N.eqb_spec dst k); [lia|].
    pose proof (wf_lam w k WF). destruct (N.eqb_spec src k) as [<-|]; lia.
Qed.
Definition settable (D D' : adata) : Prop :=
  match D, D' with
  | DHolder _, _ | _, DHolder _ => False
  | DToken t, DToken t' => t_owner t' = t_owner t /\ t_mint t' = t_mint t /\ t_delegate t' = None /\
                           t_close t' = None /\ t_amount t <= t_amount t'
  | DToken _, _ => False
  | _, _ => True
  end.
Lemma settable_holder D D' : settable D D' -> no_holder D /\ no_holder D'.
Proof. destruct D, D'; simpl; intros H; try contradiction; split; intros h; discriminate. Qed.
Lemma rely_setd e w k D : wf_world w -> wf_data D -> own (get w k) <> e_prog e -> ~ pda e k ->
  settable (dat (get w k)) D -> rely e w (setd w k D).
Proof.
  intros WF WD O NP ST. destruct (settable_holder _ _ ST) as [H1 H2]. split.
  - intros k' O'. ws. left. destruct (N.eqb_spec k k') as [<-|]; [congruence|]. repeat split; auto; lia.
  - intros k' N1 N2. wsi N2. congruence.
  - intros k' P _. ws. destruct (N.eqb_spec k k') as [<-|]; [contradiction|]. repeat split; auto; lia.
  - intros k' t c OT DT T1 T2 T3. ws. split; [auto|]. destruct (N.eqb_spec k k') as [<-|].
    + rewrite DT in ST. destruct D; try contradiction. simpl in ST. destruct ST as (A & B & C & E & F). eauto 8.
    + exists t. repeat split; auto; lia.
  - intros c. ws. destruct (N.eqb_spec k (e_holder e (e_vault e c))) as [<-|]; [right|left; auto].
    split; [apply H1|]. intros h E. exfalso. eapply H2; eauto.
  - intros k'. split; ws; [apply (wf_lam _ _ WF)|]. destruct (k =? k'); auto. apply (wf_dat _ _ WF).
Qed.

(** ** Scripts *)
Inductive act :=
| Call (cx : ctx) (c : call)
| Pay (src dst n : N)
| Set_ (k : N) (D : adata).
Definition ctx_ok (cx : ctx) : bool :=
  forallb (fun k => negb (is_pda k)) (c_signers cx) && (c_now cx <? U64) &&
  match c_view cx with
  | Some v => (vw_effective v <? U64) && (negb (vw_vote v =? 0) || (vw_effective v =? 0))
  | None => true
  end.
Lemma ctx_ok_wf cx : ctx_ok cx = true -> wf_ctx denv cx.
Proof.
  unfold ctx_ok. rewrite !andb_true_iff. intros [[A B] C]. b2p B. split; [|split].
  - intros k S. unfold signed in S. apply existsb_exists in S as (x & X & E). b2p E. subst x.
    rewrite forallb_forall in A. specialize (A k X). apply negb_true_iff in A. now apply denv_not_pda.
  - exact B.
  - intros v V. rewrite V in C. apply andb_true_iff in C as [C1 C2]. b2p C1. split; [auto|].
    intros Z. rewrite Z in C2. simpl in C2. b2p C2. exact C2.
Qed.
Definition call_okb (c : call) : bool :=
  match c with
  | CInitializeConfig _ _ _ cd b sy _ => (cd <? U64) && (b <? U16) && (sy <? U64)
  | CUpdateConfig _ (CooldownTimeSeconds x) => x <? U64
  | CUpdateConfig _ (MaxDeactivationBasisPoints x) => x <? U16
  | CUpdateConfig _ (SyncRewardsLamports x) => x <? U64
  | CValidatorStakeTokens _ n | CSlashValidatorStake _ n | CSolStakerStakeTokens _ n
  | CUnstakeTokens _ n | CSlashSolStakerStake _ n | CSolStakerMoveTokens _ n
  | CValidatorOverride _ n => n <? U64
  | _ => true
  end.
Lemma call_okb_wf c : call_okb c = true -> wf_call c.
Proof.
  destruct c; simpl; auto; try (intros H; b2p H; exact H).
  - rewrite !andb_true_iff. intros [[A B] C]. b2p A. b2p B. b2p C. auto.
  - destruct f; intros H; b2p H; exact H.
Qed.
Definition set_okb (D D' : adata) : bool :=
  match D, D' with
  | DToken t, DToken t' => (t_owner t' =? t_owner t) && (t_mint t' =? t_mint t) &&
      bool_decide (t_delegate t' = None) && bool_decide (t_close t' = None) &&
      (t_amount t <=? t_amount t') && (t_amount t' <? U64)
  | DVote _, DVote _ => true
  | _, _ => false
  end.
Lemma set_okb_ok D D' : set_okb D D' = true -> settable D D' /\ wf_data D'.
Proof.
  destruct D, D'; simpl; try discriminate; auto. rewrite !andb_true_iff, !bool_decide_eq_true.
  intros [[[[[A B] C] E] F] G]. b2p A. b2p B. b2p F. b2p G. auto 6.
Qed.
Definition do (w : world) (a : act) : option world :=
  match a with
  | Call cx c =>
      if ctx_ok cx && call_okb c then match run denv cx c w with Ok w' => Some w' | _ => None end else None
  | Pay src dst n =>
      if negb (own (get w src) =? e_prog denv) && negb (is_pda src) && negb (src =? dst) &&
         (n <=? lam (get w src)) && (lam (get w dst) + n <? U64)
      then Some (setl (setl w src (lam (get w src) - n)) dst (lam (get w dst) + n)) else None
  | Set_ k D =>
      if negb (own (get w k) =? e_prog denv) && negb (is_pda k) && set_okb (dat (get w k)) D
      then Some (setd w k D) else None
  end.
Definition event_of (a : act) : event := match a with Call cx c => Do cx c | _ => Other end.
Lemma do_step w a w' : wf_world w -> do w a = Some w' -> step denv w (event_of a) w'.
Proof.
  intros WF. destruct a as [cx c|src dst n|k D]; simpl.
  - destruct (ctx_ok cx && call_okb c) eqn:B; [|discriminate]. apply andb_true_iff in B as [B1 B2].
    destruct (run denv cx c w) eqn:R; try discriminate. intros [= <-].
    constructor; auto using ctx_ok_wf, call_okb_wf.
  - destruct (_ && _ && _ && _ && _) eqn:B; [|discriminate]. intros [= <-].
    rewrite !andb_true_iff, !negb_true_iff in B. destruct B as [[[[B1 B2] B3] B4] B5]. b2p B1. b2p B3. b2p B4. b2p B5.
    constructor. apply rely_pay; auto using denv_not_pda.
  - destruct (_ && _ && _) eqn:B; [|discriminate]. intros [= <-].
    rewrite !andb_true_iff, !negb_true_iff in B. destruct B as [[B1 B2] B3]. b2p B1.
    destruct (set_okb_ok _ _ B3). constructor. apply rely_setd; auto using denv_not_pda.
Qed.
(** Run a script, adding up [f]. *)
Fixpoint play (f : world -> event -> N) (w : world) (n : N) (l : list act) : option (world * N) :=
  match l with
  | [] => Some (w, n)
  | a :: l => match do w a with Some w' => play f w' (n + f w (event_of a)) l | None => None end
  end.
Lemma play_tally f w0 w n l w' n' : inv denv w0 -> tally denv f w0 w n -> play f w n l = Some (w', n') ->
  tally denv f w0 w' n'.
Proof.
  intros I. revert w n. induction l as [|a l IH]; simpl; intros w n T.
  - intros [= <- <-]. exact T.
  - destruct (do w a) eqn:D; [|discriminate]. intros P. eapply IH; [|exact P].
    econstructor; eauto. apply do_step; auto. apply (i_wf denv). eapply inv_tally; eauto using denv_ok.
Qed.
Definition none_in (w : world) (ev : event) : N := 0.
Definition after (w : world) (l : list act) : option world :=
  match play none_in w 0 l with Some (w', _) => Some w' | None => None end.
Lemma after_reachable w l w' : reachable denv w -> after w l = Some w' -> reachable denv w'.
Proof.
  intros R. unfold after. destruct (play none_in w 0 l) as [[w1 n1]|] eqn:P; [|discriminate]. intros [= <-].
  eapply reachable_tally; [exact R|]. eapply play_tally; [|constructor|exact P].
  eauto using inv_reachable, denv_ok.
Qed.

(** ** The genesis world *)
Definition kcfg : N := 800.      Definition kmint : N := 808.    Definition kvtok : N := 816.
Definition kptok : N := 824.     Definition alice : N := 832.    Definition bob : N := 840.
Definition carol : N := 848.     Definition vote1 : N := 856.    Definition vote2 : N := 864.
Definition nat1 : N := 872.      Definition nat2 : N := 880.     Definition atok : N := 888.
Definition btok : N := 896.      Definition gov : N := 904.      Definition slasher : N := 912.
Definition dave : N := 920.      Definition kcfg2 : N := 928.    Definition kvtok2 : N := 936.
Definition kpda : N := e_vault denv kcfg.
Definition kvhr : N := e_holder denv kpda.
Definition kpool : N := e_pool denv kmint.
Definition kval1 : N := e_val denv vote1 kcfg.
Definition kval2 : N := e_val denv vote2 kcfg.
Definition ksol1 : N := e_sol denv nat1 kcfg.
Definition ksol2 : N := e_sol denv nat2 kcfg.
Definition docs : N := 7.
Definition rent (n : N) : N := e_rent denv n.
Definition tok (m o n : N) : adata := DToken (Tok m o n None 0 None false).
Definition accounts : list (N * account) :=
  [ (kcfg, Acct (rent CONFIG_LEN) 8 (DRaw (repeat 0 (N.to_nat CONFIG_LEN))));
    (kmint, Acct (rent 82) 16 (DMint (Mnt 1000000 9)));
    (kvtok, Acct (rent 165) 16 (tok kmint kpda 0));
    (kptok, Acct (rent 165) 16 (tok kmint kpool 0));
    (kpool, Acct 100000000000 24 (DRaw []));
    (kvhr, Acct (rent 32) 24 (DHolder (Hold 0 0)));
    (kpda, Acct (rent 0) 0 (DRaw []));
    (vote1, Acct 5000000 32 (DVote alice)); (vote2, Acct 5000000 32 (DVote dave));
    (kval1, Acct (rent VAL_LEN) 0 (DRaw [])); (kval2, Acct (rent VAL_LEN) 0 (DRaw []));
    (ksol1, Acct (rent SOL_LEN) 0 (DRaw [])); (ksol2, Acct (rent SOL_LEN) 0 (DRaw []));
    (e_duna denv alice docs, Acct 1000000 48 (DRaw [1])); (e_duna denv bob docs, Acct 1000000 48 (DRaw [1]));
    (e_duna denv dave docs, Acct 1000000 48 (DRaw [1]));
    (alice, Acct 1000000000 0 (DRaw [])); (bob, Acct 1000000000 0 (DRaw []));
    (carol, Acct 1000000000 0 (DRaw [])); (dave, Acct 1000000000 0 (DRaw []));
    (gov, Acct 1000000000 0 (DRaw [])); (slasher, Acct 1000000000 0 (DRaw []));
    (atok, Acct (rent 165) 16 (tok kmint alice 400000)); (btok, Acct (rent 165) 16 (tok kmint bob 500000));
    (kcfg2, Acct (rent CONFIG_LEN) 8 (DRaw (repeat 0 (N.to_nat CONFIG_LEN))));
    (kvtok2, Acct (rent 165) 16 (tok kmint (e_vault denv kcfg2) 0));
    (e_vault denv kcfg2, Acct (rent 0) 0 (DRaw []));
    (e_val denv vote1 kcfg2, Acct (rent VAL_LEN) 0 (DRaw [])) ].
Definition world0 : world := list_to_map accounts.
Lemma get_list_to_map (l : list (N * account)) k :
  get (list_to_map l : world) k = no_account \/ In (k, get (list_to_map l : world) k) l.
Proof.
  induction l as [|[k' a] l IH]; [left; reflexivity|]. cbn [list_to_map foldr]. unfold get in *.
  destruct (N.eq_dec k' k) as [->|NE].
  - right. left. cbn. rewrite lookup_insert. reflexivity.
  - cbn. rewrite lookup_insert_ne by auto. destruct IH as [IH|IH]; [left|right; right]; exact IH.
Qed.
Definition genesis_okb (p : N * account) : bool :=
  let '(k, a) := p in
  (if own a =? e_prog denv
   then match dat a with
        | DRaw b => forallb (N.eqb 0) b && negb (is_pda k) | _ => false end
   else true) &&
  (if is_pda k then (own a =? 0) && match dat a with DRaw [] => true | _ => false end else true) &&
  (lam a <? U64) &&
  match dat a with
  | DRaw _ | DVote _ => true
  | DToken t => t_amount t <? U64
  | DMint m => m_supply m <? U64
  | DHolder h => (h_deposited h =? 0) && (h_last h <? U128)
  | _ => false
  end.
Lemma zeros b : forallb (N.eqb 0) b = true -> b = repeat 0 (length b).
Proof.
  induction b as [|x b IH]; cbn [forallb length repeat]; auto. rewrite andb_true_iff. intros [A B]. b2p A. rewrite <- A, <- (IH B). reflexivity.
Qed.
Lemma is_pda_true k : pda denv k -> is_pda k = true.
Proof. intros P. destruct (is_pda k) eqn:E; auto. exfalso. eapply denv_not_pda; eauto. Qed.
Lemma genesis_of_list l : forallb genesis_okb l = true -> genesis denv (list_to_map l).
Proof.
  intros F. rewrite forallb_forall in F.
  assert (forall k, get (list_to_map l : world) k = no_account \/
                    genesis_okb (k, get (list_to_map l : world) k) = true) as C.
  { intros k. destruct (get_list_to_map l k) as [E|I]; auto. }
  split.
  - intros k O. destruct (C k) as [E|G]; [rewrite E in O; discriminate|]. unfold genesis_okb in G.
    rewrite O in G. simpl in G. destruct (dat (get (list_to_map l) k)) as [b| | | | | | |]; try discriminate.
    rewrite !andb_true_iff, negb_true_iff in G. destruct G as [[[[G1 G2] _] _] _].
    split; [exists (length b); f_equal; now apply zeros|now apply denv_not_pda].
  - intros k P. destruct (C k) as [E|G]; [rewrite E; auto|]. unfold genesis_okb in G.
    rewrite (is_pda_true _ P) in G. rewrite !andb_true_iff in G. destruct G as [[[_ [G1 G2]] _] _]. b2p G1.
    split; [auto|]. destruct (dat (get (list_to_map l) k)) as [[|]| | | | | | |]; try discriminate. auto.
  - intros c h D. destruct (C (e_holder denv (e_vault denv c))) as [E|G]; [rewrite E in D; discriminate|].
    unfold genesis_okb in G. rewrite D in G. rewrite !andb_true_iff in G. destruct G as [_ [G _]]. b2p G. auto.
  - intros k. destruct (C k) as [E|G]; [rewrite E; split; simpl; auto; reflexivity|]. unfold genesis_okb in G.
    rewrite !andb_true_iff in G. destruct G as [[_ G1] G2]. b2p G1. split; [auto|].
    destruct (dat (get (list_to_map l) k)); try discriminate; simpl; auto; try (b2p G2; exact G2).
    apply andb_true_iff in G2 as [A B]. b2p A. b2p B. rewrite A. split; [auto|reflexivity].
Qed.
Lemma world0_genesis : genesis denv world0.
Proof. apply genesis_of_list. vm_compute. reflexivity. Qed.
Lemma world0_reachable : reachable denv world0.
Proof. exists world0, []. split; [apply world0_genesis|constructor]. Qed.
Lemma script_reachable l w : after world0 l = Some w -> reachable denv w.
Proof. apply after_reachable, world0_reachable. Qed.
Lemma script_inv l w : after world0 l = Some w -> inv denv w.
Proof. intros H. apply inv_reachable; [apply denv_ok|eapply script_reachable; eauto]. Qed.

(** ** Events of the examples *)
Definition everything : list N := map fst accounts.
Definition cx (signers : list N) (now : N) (v : option view) (acc : N) : ctx := Ctx signers everything now v acc.
Definition init_config : act :=
  Call (cx [] 0 None 0) (CInitializeConfig (InitConfigA kcfg kmint kpda kvtok kvhr) slasher gov 1000 5000 100 docs).
Definition init_val (v auth : N) : act :=
  Call (cx [] 0 None 0) (CInitializeValidatorStake (InitValA kcfg (e_duna denv auth docs) (e_val denv v kcfg) v)).
Definition init_sol (n v auth l : N) : act :=
  Call (cx [] 0 (Some (View v auth l)) 0)
    (CInitializeSolStakerStake
       (InitSolA kcfg (e_duna denv auth docs) (e_sol denv n kcfg) (e_override denv auth kcfg)
                 (e_val denv v kcfg) n (e_view denv))).
Definition stake_accts_of (sk auth src srcauth : N) : stake_accts :=
  StakeA kcfg kpool kptok sk auth src srcauth kmint kpda kvtok kvhr (e_token denv).
Definition stake_val (v auth src srcauth n : N) : act :=
  Call (cx [srcauth] 0 None 0)
    (CValidatorStakeTokens (stake_accts_of (e_val denv v kcfg) auth src srcauth) n).
Definition stake_sol (nt auth src srcauth n acc : N) : act :=
  Call (cx [srcauth] 0 None acc)
    (CSolStakerStakeTokens (stake_accts_of (e_sol denv nt kcfg) auth src srcauth) n).
Definition harvest_val (v auth : N) : act :=
  Call (cx [] 0 None 0) (CHarvestValidatorRewards (HarvestValA kcfg kvhr (e_val denv v kcfg) auth)).
Definition harvest_sol (nt auth pv pa cv ca : N) (keeper : option N) (vw : view) : act :=
  Call (cx [] 0 (Some vw) 0)
    (CHarvestSolStakerRewards
       (HarvestSolA (e_view denv) kcfg kvhr (e_sol denv nt kcfg) auth nt (e_val denv pv kcfg) pa
                    (e_val denv cv kcfg) ca keeper)).
Definition harvest_holder (acc : N) : act :=
  Call (cx [] 0 None acc) (CHarvestHolderRewards (HarvestHolderA kcfg kpool kptok kvtok kvhr kpda kmint)).
Definition unstake (sk auth dst n now acc : N) : act :=
  Call (cx [auth] now None acc)
    (CUnstakeTokens (UnstakeA kcfg kpool kptok sk auth kvtok kpda kvhr kmint dst (e_token denv)) n).
Definition slash_sol (nt auth n : N) : act :=
  Call (cx [slasher] 0 None 0)
    (CSlashSolStakerStake (SlashA kcfg (e_sol denv nt kcfg) auth slasher kvtok kvhr kpda kmint (e_token denv)) n).
Definition slash_val (v auth n : N) : act :=
  Call (cx [slasher] 0 None 0)
    (CSlashValidatorStake (SlashA kcfg (e_val denv v kcfg) auth slasher kvtok kvhr kpda kmint (e_token denv)) n).
Definition move (n1 n2 auth n : N) : act :=
  Call (cx [auth] 0 None 0)
    (CSolStakerMoveTokens (MoveA kcfg kvhr auth (e_sol denv n1 kcfg) (e_sol denv n2 kcfg)) n).
Definition override (v auth n : N) : act :=
  Call (cx [gov] 0 None 0) (CValidatorOverride (OverrideA kcfg gov (e_val denv v kcfg) auth kvhr) n).
Definition sync_auth (v : N) : act :=
  Call (cx [] 0 None 0) (CValidatorSyncAuthority (SyncAuthA kcfg (e_val denv v kcfg) v)).
Definition donate (n : N) : act := Set_ kvtok (tok kmint kpda n).

(** Two validators with SOL stakers, stakes, rewards of both kinds. *)
Definition setup : list act :=
  [ init_config; init_val vote1 alice; init_val vote2 dave; init_sol nat1 vote1 bob 1000;
    stake_val vote1 alice atok alice 500; stake_sol nat1 bob btok bob 2000 0 ].
Definition story : list act :=
  setup ++
  [ Pay carol kcfg 1000000; harvest_sol nat1 bob vote1 alice vote1 alice None (View vote1 bob 1000);
    harvest_holder (5 * 10 ^ 18); harvest_val vote1 alice;
    harvest_sol nat1 bob vote1 alice vote2 dave (Some carol) (View vote2 bob 700);
    init_sol nat2 vote2 bob 5000; Pay carol kcfg 777777; move nat1 nat2 bob 800;
    unstake ksol2 bob btok 400 5000 (5 * 10 ^ 18); donate 60; slash_sol nat2 bob 50;
    Set_ vote1 (DVote dave); sync_auth vote1; override vote1 dave 50 ].

(** The world at the end of a script that runs through. *)
Definition at_end (l : list act) : world := match after world0 l with Some w => w | None => world0 end.
Definition runs (l : list act) : bool := match after world0 l with Some _ => true | None => false end.
Lemma at_end_reachable l : runs l = true -> reachable denv (at_end l).
Proof.
  unfold runs, at_end. destruct (after world0 l) as [w|] eqn:E; [|discriminate]. intros _.
  eapply script_reachable; eauto.
Qed.
Lemma play_app f w n l1 l2 :
  play f w n (l1 ++ l2) = match play f w n l1 with Some (w1, n1) => play f w1 n1 l2 | None => None end.
Proof.
  revert w n. induction l1 as [|a l1 IH]; simpl; intros w n; auto. destruct (do w a); auto.
Qed.
Lemma play_none w n l : play none_in w n l = match play none_in w 0 l with Some (w1, _) => Some (w1, n) | None => None end.
Proof.
  revert w n. induction l as [|a l IH]; simpl; intros w n; auto. destruct (do w a) as [w'|]; auto.
  unfold none_in at 1 3. rewrite N.add_0_r. apply IH.
Qed.
Lemma at_end_step l a : runs (l ++ [a]) = true -> step denv (at_end l) (event_of a) (at_end (l ++ [a])).
Proof.
  unfold runs, at_end, after. rewrite play_app. destruct (play none_in world0 0 l) as [[w n]|] eqn:E; [|discriminate].
  simpl. destruct (do w a) as [w'|] eqn:D; [|discriminate]. intros _. apply do_step; auto.
  apply (i_wf denv), inv_reachable; [apply denv_ok|]. eapply (script_reachable l). unfold after. rewrite E. auto.
Qed.
Lemma at_end_run l cx c : runs (l ++ [Call cx c]) = true ->
  wf_ctx denv cx /\ wf_call c /\ run denv cx c (at_end l) = Ok (at_end (l ++ [Call cx c])).
Proof. intros R. apply at_end_step in R. inversion R; subst; auto. Qed.
Lemma at_end_tally f l n : play f world0 0 l = Some (at_end l, n) -> tally denv f world0 (at_end l) n.
Proof.
  intros P. eapply play_tally; [|constructor|exact P]. apply inv_reachable; [apply denv_ok|apply world0_reachable].
Qed.
(** The sum of [f] over a script. *)
Definition count (f : world -> event -> N) (l : list act) : N :=
  match play f world0 0 l with Some (_, n) => n | None => 0 end.
Lemma play_world f g w n m l :
  match play f w n l with Some (w', _) => Some w' | None => None end =
  match play g w m l with Some (w', _) => Some w' | None => None end.
Proof. revert w n m. induction l as [|a l IH]; simpl; intros w n m; auto. destruct (do w a); auto. Qed.
Lemma count_tally f l : runs l = true -> tally denv f world0 (at_end l) (count f l).
Proof.
  intros R. apply at_end_tally. unfold runs, at_end, after, count in *.
  pose proof (play_world f none_in world0 0 0 l) as P.
  destruct (play none_in world0 0 l) as [[w n]|]; [|discriminate].
  destruct (play f world0 0 l) as [[w' n']|]; [|discriminate]. congruence.
Qed.
Lemma story_runs : runs story = true.
Proof. vm_compute. reflexivity. Qed.
Lemma setup_runs : runs setup = true.
Proof. vm_compute. reflexivity. Qed.

(** Contents of an account, for examples. *)
Definition cfg_of (w : world) (k : pubkey) : config :=
  match dat (get w k) with DConfig c => c | _ => Cfg 0 0 0 0 0 0 0 0 0 0 0 0 end.
Definition val_of (w : world) (k : pubkey) : vstake :=
  match dat (get w k) with DVal v => v | _ => VStake (Del 0 0 0 0 0 0 0) 0 0 end.
Definition sol_of (w : world) (k : pubkey) : sstake :=
  match dat (get w k) with DSol s => s | _ => SStake (Del 0 0 0 0 0 0 0) 0 0 end.
