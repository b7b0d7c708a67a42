(** C06, C07, C08, C10, C13: what instructions do to tokens and stakes. *)
From Verif Require Import Base Types Layout Instr Math External Processor Runtime History Spec
  WorldLemmas Effects Handlers Evolve Sane Wf Arith Totals Nets Caps Deposits Inv Tokens Demo.

(** ** C06 *)
Theorem C06_unstake_exact e cx a n w w' : env_ok e -> reachable e w ->
  run e cx (CUnstakeTokens a n) w = Ok w' ->
  exists d d',
    stake_of e w (un_config a) (un_stake a) = Some d /\
    stake_of e w' (un_config a) (un_stake a) = Some d' /\
    staked d = staked d' + n /\
    capped_exactly e w' (un_stake a) /\
    deposit e w (un_config a) = deposit e w' (un_config a) + n /\
    (forall k, tokens e w' k + (if k =? un_ptok a then n else 0) =
               tokens e w k + (if k =? un_dest a then n else 0)) /\
    tokens e w' (un_vault a) = tokens e w (un_vault a) /\
    (forall k, supply w' k = supply w k) /\
    (forall ck k, k <> un_stake a -> stake_of e w' ck k = stake_of e w ck k).
Proof.
  intros OK R RUN. pose proof (inv_reachable _ _ OK R) as I. apply run_ok in RUN as (_ & D & _).
  pose proof (deposit_did _ _ _ _ _ (un_config a) OK (i_sane _ _ I) (i_wf _ _ I) (i_backed _ _ I _) D) as DP.
  simpl in DP. rewrite N.eqb_refl in DP. inversion D as [| | | | | | | | | | |? ? U| | | |]; subst.
  destruct (unstaked_tokens _ _ _ _ _ _ U (i_wf _ _ I) (i_backed _ _ I _)) as [T S].
  pose proof (unstaked_vault_ptok _ _ _ _ _ _ OK U) as NV.
  destruct (unstaked_net _ _ _ _ _ _ OK U) as (c & _ & C).
  pose proof (chained_capped_del _ _ _ _ _ _ _ C) as CE.
  assert (own (get w (un_stake a)) = e_prog e /\ belongs e (un_config a) (un_stake a) (dat (get w (un_stake a))) /\
          un_vault a <> un_dest a /\
          exists d0, del_of (dat (get w (un_stake a))) = Ok d0 /\ n <= staked d0) as (O & B & ND & d0 & D0 & LE).
  { destruct U. repeat (split; [assumption|]). exists d0. split; [auto|].
    destruct (sframe_harvest _ _ _ _ _ _ _ _ _ H1) as [_ SF]. specialize (SF _ Hso).
    rewrite (stk_del _ _ Hd), (stk_del _ _ Hd0) in SF. injection SF as SF _. lia. }
  destruct (chained_stake _ _ _ _ _ _ _ _ C O B) as (c1 & d & h & rpt & sr & hr & RD & S1 & S2 & OT); [reflexivity|].
  eexists d, _. split; [exact S1|]. split; [exact S2|].
  apply stake_of_some in S1 as (_ & D1 & _). rewrite D0 in D1. injection D1 as <-.
  split; [simpl; lia|]. split; [exact CE|]. split; [lia|]. split; [exact T|]. split.
  - specialize (T (un_vault a)). unfold at_key in T.
    rewrite (proj2 (N.eqb_neq _ _) NV), (proj2 (N.eqb_neq _ _) ND) in T. lia.
  - split; [exact S|exact OT].
Qed.
Print Assumptions C06_unstake_exact.
Definition before_unstake : list act := firstn 14 story.
Example C06_case :
  runs (before_unstake ++ [unstake ksol2 bob btok 400 5000 (5 * 10 ^ 18)]) = true /\
  staked (s_del (sol_of (at_end before_unstake) ksol2)) = 800 /\
  tokens denv (at_end before_unstake) btok = 498000 /\
  tokens denv (at_end (before_unstake ++ [unstake ksol2 bob btok 400 5000 (5 * 10 ^ 18)])) btok = 498400.
Proof. vm_compute. auto. Qed.

(** ** C07 *)
Definition staking (c : call) : option (stake_accts * N) :=
  match c with CValidatorStakeTokens a n | CSolStakerStakeTokens a n => Some (a, n) | _ => None end.
Theorem C07_stake_exact e cx c a n w w' : env_ok e -> staking c = Some (a, n) ->
  run e cx c w = Ok w' ->
  exists d d',
    stake_of e w (st_config a) (st_stake a) = Some d /\
    stake_of e w' (st_config a) (st_stake a) = Some d' /\
    0 < n /\ staked d' = staked d + n /\
    capped_exactly e w' (st_stake a) /\
    deposit e w' (st_config a) = deposit e w (st_config a) + n /\
    (forall k, tokens e w' k + (if k =? st_source a then n else 0) =
               tokens e w k + (if k =? st_ptok a then n else 0)) /\
    (st_vault a <> st_source a -> tokens e w' (st_vault a) = tokens e w (st_vault a)) /\
    (forall k, supply w' k = supply w k) /\
    (forall ck k, k <> st_stake a -> stake_of e w' ck k = stake_of e w ck k).
Proof.
  intros OK ST RUN. apply run_ok in RUN as (_ & D & _).
  assert (staked_any e cx a n w w') as U by (destruct D; try discriminate ST; injection ST as <- <-; auto). clear D.
  pose proof (staked_net _ _ _ _ _ _ OK U) as C. destruct U as [c0 Hco Hc0 Hso Hbel U].
  destruct (staked_tokens _ _ _ _ _ _ U) as [T S]. pose proof (staked_vault_ptok _ _ _ _ _ _ OK U) as NV.
  pose proof (chained_capped_del _ _ _ _ _ _ _ C) as CE.
  destruct (hupd_staked _ _ _ _ _ _ U) as (h0 & HU). pose proof (deposit_hupd _ _ _ _ (st_config a) _ _ OK HU) as DP.
  rewrite N.eqb_refl in DP. simpl in DP.
  destruct (chained_stake _ _ _ _ _ _ _ _ C Hso Hbel) as (c1 & d & h & rpt & sr & hr & RD & S1 & S2 & OT); [reflexivity|].
  eexists d, _. split; [exact S1|]. split; [exact S2|]. split; [destruct U; auto|]. split; [reflexivity|].
  split; [exact CE|]. split; [lia|]. split; [exact T|]. split.
  - intros NS. specialize (T (st_vault a)). unfold at_key in T.
    rewrite (proj2 (N.eqb_neq _ _) NV), (proj2 (N.eqb_neq _ _) NS) in T. lia.
  - split; [exact S|exact OT].
Qed.
Print Assumptions C07_stake_exact.
Example C07_case : let l := removelast setup in
  runs (l ++ [stake_sol nat1 bob btok bob 2000 0]) = true /\
  tokens denv (at_end l) btok = 500000 /\ tokens denv (at_end l) kptok = 500 /\
  tokens denv (at_end setup) btok = 498000 /\ tokens denv (at_end setup) kptok = 2500.
Proof. vm_compute. auto. Qed.

(** ** C08 *)
Definition slashing (c : call) : option (slash_accts * N) :=
  match c with CSlashValidatorStake a n | CSlashSolStakerStake a n => Some (a, n) | _ => None end.
Theorem C08_slash_exact e cx c a n w w' : env_ok e -> slashing c = Some (a, n) ->
  run e cx c w = Ok w' ->
  exists d d',
    stake_of e w (sl_config a) (sl_stake a) = Some d /\
    stake_of e w' (sl_config a) (sl_stake a) = Some d' /\
    0 < n /\ staked d = staked d' + N.min n (staked d) /\
    capped_exactly e w' (sl_stake a) /\
    (forall k, tokens e w k = tokens e w' k + (if k =? sl_vault a then N.min n (staked d) else 0)) /\
    (forall k, supply w k = supply w' k + (if k =? sl_mint a then N.min n (staked d) else 0)) /\
    (forall ck k, k <> sl_stake a -> stake_of e w' ck k = stake_of e w ck k).
Proof.
  intros OK ST RUN. apply run_ok in RUN as (_ & D & _).
  assert (slashed_any e cx a n w w') as U by (destruct D; try discriminate ST; injection ST as <- <-; auto). clear D.
  pose proof (slashed_net _ _ _ _ _ _ OK U) as C. destruct U as [c0 Hco Hc0 Hso Hbel U].
  pose proof (chained_capped_del _ _ _ _ _ _ _ C) as CE.
  destruct (chained_stake _ _ _ _ _ _ _ _ C Hso Hbel) as (c1 & d & h & rpt & sr & hr & RD & S1 & S2 & OT); [reflexivity|].
  eexists d, _. split; [exact S1|]. split; [exact S2|]. split; [destruct U; auto|].
  apply stake_of_some in S1 as (_ & D1 & _).
  destruct (slashed_tokens _ _ _ _ _ _ _ U Hso D1) as (T & S & _).
  split; [simpl; lia|]. split; [exact CE|]. split; [intros k; now rewrite <- T|]. split; [intros k; now rewrite <- S|exact OT].
Qed.
Print Assumptions C08_slash_exact.
Definition before_slash : list act := firstn 16 story.
Example C08_case :
  runs (before_slash ++ [slash_sol nat2 bob 50]) = true /\
  staked (s_del (sol_of (at_end before_slash) ksol2)) = 400 /\
  tokens denv (at_end before_slash) kvtok = 60 /\ supply (at_end before_slash) kmint = 1000000 /\
  tokens denv (at_end (before_slash ++ [slash_sol nat2 bob 50])) kvtok = 10.
Proof. vm_compute. auto. Qed.

(** ** C10 *)
Theorem C10_unstake_limits e cx a n w w' : env_ok e -> run e cx (CUnstakeTokens a n) w = Ok w' ->
  exists c d d', config_at e w (un_config a) c /\
    stake_of e w (un_config a) (un_stake a) = Some d /\
    stake_of e w' (un_config a) (un_stake a) = Some d' /\
    cooldown d <= c_now cx /\ n <= staked d * cfg_bps c / 10000 /\
    cooldown d' = N.min (c_now cx + cfg_cooldown c) (2 ^ 64 - 1).
Proof.
  intros OK RUN. apply run_ok in RUN as (_ & D & _). inversion D as [| | | | | | | | | | |? ? U| | | |]; subst.
  destruct (unstaked_net _ _ _ _ _ _ OK U) as (c & Dc & C).
  assert (own (get w (un_config a)) = e_prog e /\ own (get w (un_stake a)) = e_prog e /\
          belongs e (un_config a) (un_stake a) (dat (get w (un_stake a))) /\
          exists d0, del_of (dat (get w (un_stake a))) = Ok d0 /\ cooldown d0 <= c_now cx /\
                     n <= staked d0 * cfg_bps c / 10000) as (OC & O & B & d0 & D0 & LC & LE).
  { destruct U. repeat (split; [assumption|]). exists d0. split; [auto|].
    destruct (sframe_harvest _ _ _ _ _ _ _ _ _ H1) as [_ SF]. specialize (SF _ Hso).
    rewrite (stk_del _ _ Hd), (stk_del _ _ Hd0) in SF. injection SF as SF1 SF2.
    assert (cfg_bps c1 = cfg_bps c) as CC.
    { destruct H1. rewrite Hdat, N.eqb_refl in Hc. rewrite Dc in Hc1. injection Hc1 as <-. injection Hc as <-. reflexivity. }
    apply maxdeact_ok in Hmax. rewrite CC, SF1 in Hmax. subst m. split; [lia|auto]. }
  destruct (chained_stake _ _ _ _ _ _ _ _ C O B) as (c1 & d & h & rpt & sr & hr & RD & S1 & S2 & OT); [reflexivity|].
  eexists c, d, _. split; [split; auto|]. split; [exact S1|]. split; [exact S2|].
  apply stake_of_some in S1 as (_ & D1 & _). rewrite D0 in D1. injection D1 as <-.
  split; [exact LC|]. split; [exact LE|]. reflexivity.
Qed.
Print Assumptions C10_unstake_limits.
(* exactly the half that is allowed, and nothing before the cooldown has passed *)
Example C10_case :
  runs (before_unstake ++ [unstake ksol2 bob btok 400 5000 (5 * 10 ^ 18)]) = true /\
  runs (before_unstake ++ [unstake ksol2 bob btok 401 5000 (5 * 10 ^ 18)]) = false /\
  cooldown (s_del (sol_of (at_end (before_unstake ++ [unstake ksol2 bob btok 400 5000 (5 * 10 ^ 18)])) ksol2)) = 6000 /\
  runs (before_unstake ++ [unstake ksol2 bob btok 400 5000 (5 * 10 ^ 18);
                           unstake ksol2 bob btok 100 5999 (5 * 10 ^ 18)]) = false /\
  runs (before_unstake ++ [unstake ksol2 bob btok 400 5000 (5 * 10 ^ 18);
                           unstake ksol2 bob btok 100 6000 (5 * 10 ^ 18)]) = true.
Proof. vm_compute. auto 10. Qed.

(** ** C13 *)
Lemma owned_plain e w k : sane e w -> own (get w k) = e_prog e -> plain (dat (get w k)).
Proof. intros S O. destruct (sane_kind _ _ S k O) as [[? ->]|[[? ->]|[[? ->]|[? ->]]]]; exact I. Qed.
Theorem C13_token_authorisation e cx c w w' k t : env_ok e -> reachable e w -> run e cx c w = Ok w' ->
  tokens e w' k < tokens e w k -> dat (get w k) = DToken t ->
  exists x, (x = t_owner t \/ t_delegate t = Some x) /\
    match c with
    | CValidatorStakeTokens a _ | CSolStakerStakeTokens a _ => k = st_source a /\ signed cx x = true
    | CUnstakeTokens a _ => k = un_ptok a /\ x = e_pool e (un_mint a)
    | CSlashValidatorStake a _ | CSlashSolStakerStake a _ =>
        k = sl_vault a /\ (signed cx x = true \/ x = e_vault e (sl_config a))
    | _ => False
    end.
Proof.
  intros OK R RUN LT DT. pose proof (inv_reachable _ _ OK R) as I. apply run_ok in RUN as (_ & D & _).
  assert (forall a n, staked_any e cx a n w w' -> exists x, (x = t_owner t \/ t_delegate t = Some x) /\
            k = st_source a /\ signed cx x = true) as P1.
  { intros a n [c0 _ _ _ _ U]. destruct (staked_tokens _ _ _ _ _ _ U) as [T _]. specialize (T k).
    unfold at_key in T. destruct (N.eqb_spec k (st_source a)) as [->|]; [|lia].
    apply staked_before in U as (w3 & w4 & F & TR & _). apply transferred_allowed in TR as (t' & D' & x & X1 & X2).
    apply (cframe_token _ _ _ _ F) in D' as [_ D']. rewrite DT in D'. injection D' as <-. eauto. }
  assert (forall a n d, slashed_any e cx a n w w' -> del_of (dat (get w (sl_stake a))) = Ok d ->
           exists x, (x = t_owner t \/ t_delegate t = Some x) /\
            k = sl_vault a /\ (signed cx x = true \/ x = e_vault e (sl_config a))) as P2.
  { intros a n d [c0 Hco Hc0 Hso _ U] Dd. destruct (slashed_tokens _ _ _ _ _ _ _ U Hso Dd) as (T & _ & A).
    specialize (T k). unfold at_key in T. destruct (N.eqb_spec k (sl_vault a)) as [->|]; [|lia].
    destruct A as (t' & D' & x & X1 & X2); [lia|]. rewrite DT in D'. injection D' as <-.
    exists x. split; [auto|]. split; [auto|]. apply with_pda_ok in X1 as [X1|X1]; [auto|right]. rewrite X1.
    destruct U. eapply vault_auth_eq; eauto using i_sane. split; [exact Hco|]. congruence. }
  destruct (moves c) eqn:M.
  - destruct D; try discriminate M; eauto.
    + eapply P2; eauto. rewrite H0. reflexivity.
    + destruct (unstaked_tokens _ _ _ _ _ _ H (i_wf _ _ I) (i_backed _ _ I _)) as [T _]. specialize (T k).
      unfold at_key in T. destruct (N.eqb_spec k (un_ptok a)) as [->|]; [|lia].
      apply unstaked_before in H as (w3 & w4 & F & W & _). destruct W.
      assert (dat (get w1 (un_ptok a)) = DToken t) as D1.
      { subst w1. ws. destruct (N.eqb_spec (un_vhr a) (un_ptok a)) as [EE|].
        - destruct Hpt as (p & P & _). rewrite EE in Hh. congruence.
        - now apply (cframe_token' _ _ _ _ F). }
      apply transferred_allowed in Hw2 as (t' & D' & x & X1 & X2). rewrite D1 in D'. injection D' as <-.
      exists x. split; [auto|]. split; [auto|]. cbv beta in X1. b2p X1. congruence.
    + eapply P2; eauto. rewrite H0. reflexivity.
  - exfalso. assert (cframe w w') as F.
    { eapply cframe_did; eauto. intros k' O. eapply owned_plain; eauto using i_sane. }
    rewrite (cframe_tokens e _ _ k F) in LT. lia.
Qed.
Print Assumptions C13_token_authorisation.
(** In the words of the property: a token account of an ordinary owner without
    delegate loses tokens only if that owner signed. *)
Theorem C13_owner_signed e cx c w w' k t : env_ok e -> reachable e w -> run e cx c w = Ok w' ->
  tokens e w' k < tokens e w k -> dat (get w k) = DToken t -> t_delegate t = None ->
  (forall ck, t_owner t <> e_vault e ck) -> (forall m, t_owner t <> e_pool e m) ->
  signed cx (t_owner t) = true.
Proof.
  intros OK R RUN LT DT ND NV NP.
  destruct (C13_token_authorisation _ _ _ _ _ _ _ OK R RUN LT DT) as (x & [->|X] & A); [|congruence].
  destruct c; try contradiction; destruct A as [_ A]; auto; [| |]; try (exfalso; eapply NP; eassumption);
    destruct A as [A|A]; auto; exfalso; eapply NV; eassumption.
Qed.
Print Assumptions C13_owner_signed.
(** The supply of a mint never grows, and falls only by slashing. *)
Theorem C13_supply e cx c w w' k : env_ok e -> reachable e w -> run e cx c w = Ok w' ->
  supply w' k <= supply w k /\ (supply w' k < supply w k -> slashing c <> None).
Proof.
  intros OK R RUN. pose proof (inv_reachable _ _ OK R) as I. apply run_ok in RUN as (_ & D & _).
  destruct (moves c) eqn:M.
  - destruct D; try discriminate M.
    + destruct H as [c0 _ _ _ _ U]. destruct (staked_tokens _ _ _ _ _ _ U) as [_ S]. rewrite S. lia.
    + destruct H as [c0 Hco Hc0 Hso _ U]. assert (del_of (dat (get w (sl_stake a))) = Ok (v_del v)) as Dd by (rewrite H0; auto).
      destruct (slashed_tokens _ _ _ _ _ _ _ U Hso Dd) as (_ & S & _). rewrite <- S. split; [lia|discriminate].
    + destruct H as [c0 _ _ _ _ U]. destruct (staked_tokens _ _ _ _ _ _ U) as [_ S]. rewrite S. lia.
    + destruct (unstaked_tokens _ _ _ _ _ _ H (i_wf _ _ I) (i_backed _ _ I _)) as [_ S]. rewrite S. lia.
    + destruct H as [c0 Hco Hc0 Hso _ U]. assert (del_of (dat (get w (sl_stake a))) = Ok (s_del s)) as Dd by (rewrite H0; auto).
      destruct (slashed_tokens _ _ _ _ _ _ _ U Hso Dd) as (_ & S & _). rewrite <- S. split; [lia|discriminate].
  - assert (cframe w w') as F.
    { eapply cframe_did; eauto. intros k' O. eapply owned_plain; eauto using i_sane. }
    rewrite (cframe_supply _ _ k F). lia.
Qed.
Print Assumptions C13_supply.
Example C13_case : let l := removelast setup in
  reachable denv (at_end l) /\ runs (l ++ [stake_sol nat1 bob btok bob 2000 0]) = true /\
  tokens denv (at_end setup) btok < tokens denv (at_end l) btok /\
  dat (get (at_end l) btok) = tok kmint bob 500000 /\
  runs (l ++ [stake_sol nat1 bob btok carol 2000 0]) = false.
Proof. split; [apply at_end_reachable; vm_compute; reflexivity|]. vm_compute. auto. Qed.
