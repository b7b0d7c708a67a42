(** Concrete chains of transactions for the examples. *)
From stdpp Require Import fin_maps gmap.
From Verif Require Import Base Types Layout Instr Math External Processor Runtime History Spec
  WorldLemmas Handlers Inv Demo Rewards Solvency Tx SpecTx TxLemmas.

Definition funded_b (w : world) : bool :=
  forallb (fun p : N * account => match dat (snd p) with DToken _ | DHolder _ => 0 <? lam (snd p) | _ => true end) (map_to_list w).
Lemma funded_b_ok e w : funded_b w = true -> funded e w.
Proof.
  unfold funded_b. rewrite forallb_forall. intros H.
  assert (forall k, match dat (get w k) with DToken _ | DHolder _ => 0 < lam (get w k) | _ => True end) as G.
  { intros k. unfold get. destruct (w !! k) as [a|] eqn:E; simpl; [|exact Logic.I].
    apply elem_of_map_to_list, elem_of_list_In in E. specialize (H _ E). simpl in H. destruct (dat a); auto; now apply N.ltb_lt. }
  split; [intros k t _ D|intros o h D]; [specialize (G k)|specialize (G (e_holder e o))]; rewrite D in G; exact G.
Qed.
Definition settled_b (w : world) : bool :=
  forallb (fun p : N * account => e_rent denv (data_len (dat (snd p))) <=? lam (snd p)) (map_to_list w).
Lemma settled_b_ok w : settled_b w = true -> settled denv w.
Proof.
  unfold settled_b. rewrite forallb_forall. intros H k. unfold get. destruct (w !! k) as [a|] eqn:E; simpl; [right|left; auto].
  apply elem_of_map_to_list, elem_of_list_In in E. specialize (H _ E). simpl in H. now apply N.leb_le.
Qed.
Lemma denv_rents n : 0 < e_rent denv n.
Proof. change (e_rent denv n) with ((128 + n) * 6960). lia. Qed.

(** One transaction of a script: it must leave token and holder accounts funded. *)
Fixpoint acts (w : world) (l : list act) : option world :=
  match l with
  | [] => Some w
  | a :: l => match do w a with
              | Some w' => if match a with Call _ _ => true | _ => funded_b w' end then acts w' l else None
              | None => None end
  end.
Definition play_tx (w : world) (l : list act) : option world :=
  match acts w l with Some w1 => if rent_ok denv w w1 then Some (purge w1) else None | None => None end.
Fixpoint play_txs (w : world) (l : list (list act)) : option world :=
  match l with [] => Some w | t :: l => match play_tx w t with Some w' => play_txs w' l | None => None end end.
Lemma within_trans e w1 w2 w3 : within e w1 w2 -> within e w2 w3 -> within e w1 w3.
Proof.
  intros A B. revert A. induction B as [w|w wa cx c wb W IH ST|w wa wb W IH ST F]; intros A; [exact A| |].
  - eapply within_do; [exact (IH A)|exact ST].
  - eapply within_other; [exact (IH A)|exact ST|exact F].
Qed.
Lemma acts_within w l w' : reachable denv w -> acts w l = Some w' -> within denv w w'.
Proof.
  revert w. induction l as [|a l IH]; simpl; intros w R; [intros [= <-]; constructor|].
  destruct (do w a) as [w1|] eqn:D; [|discriminate].
  assert (step denv w (event_of a) w1) as ST.
  { apply do_step; auto. apply (i_wf denv), inv_reachable; auto using denv_ok. }
  intros H. assert (within denv w w1 /\ acts w1 l = Some w') as [A B].
  { destruct a as [cx c|src dst n|k D0]; simpl in ST.
    - split; [|exact H]. eapply within_do; [constructor|exact ST].
    - destruct (funded_b w1) eqn:F; [|discriminate]. split; [|exact H].
      eapply within_other; [constructor|exact ST|]. intros _. now apply funded_b_ok.
    - destruct (funded_b w1) eqn:F; [|discriminate]. split; [|exact H].
      eapply within_other; [constructor|exact ST|]. intros _. now apply funded_b_ok. }
  eapply within_trans; [exact A|]. apply IH; auto. eapply reachable_step; eauto.
Qed.
Lemma play_tx_tx w l w' : reachable denv w -> play_tx w l = Some w' -> tx denv w w'.
Proof.
  intros R. unfold play_tx. destruct (acts w l) as [w1|] eqn:A; [|discriminate].
  destruct (rent_ok denv w w1) eqn:B; [|discriminate]. intros [= <-]. exists w1. split; [|auto]. eapply acts_within; eauto.
Qed.
Lemma txs_trans e w1 w2 w3 : txs e w1 w2 -> txs e w2 w3 -> txs e w1 w3.
Proof. intros A B. revert A. induction B as [w|w wa wb W IH T]; intros A; [exact A|]. eapply txs_cons; [exact (IH A)|exact T]. Qed.
Lemma play_txs_txs w l w' : reachable denv w -> funded denv w -> settled denv w -> play_txs w l = Some w' -> txs denv w w'.
Proof.
  revert w. induction l as [|t l IH]; simpl; intros w R F S; [intros [= <-]; constructor|].
  destruct (play_tx w t) as [w1|] eqn:T; [|discriminate]. intros H. apply play_tx_tx in T; [|auto].
  destruct (tx_props _ _ _ denv_ok denv_rents R F S T) as (R1 & F1 & S1).
  eapply txs_trans; [eapply txs_cons; [constructor|exact T]|]. auto.
Qed.

(** The accounts of [Demo], rent exempt, and the vault authority without lamports. *)
Definition taccounts (vault_lamports bob_lamports : N) : list (N * account) :=
  [ (kcfg, Acct (rent CONFIG_LEN) 8 (DRaw (repeat 0 (N.to_nat CONFIG_LEN))));
    (kmint, Acct (rent 82) 16 (DMint (Mnt 1000000 9)));
    (kvtok, Acct (rent 165) 16 (tok kmint kpda 0));
    (kptok, Acct (rent 165) 16 (tok kmint kpool 0));
    (kpool, Acct 100000000000 24 (DRaw (repeat 0 64)));
    (kvhr, Acct (rent 32) 24 (DHolder (Hold 0 0)));
    (vote1, Acct 50000000 32 (DVote alice)); (vote2, Acct 50000000 32 (DVote dave));
    (kval1, Acct (rent VAL_LEN) 0 (DRaw [])); (ksol1, Acct (rent SOL_LEN) 0 (DRaw []));
    (e_duna denv alice docs, Acct 1000000 48 (DRaw [1])); (e_duna denv bob docs, Acct 1000000 48 (DRaw [1]));
    (alice, Acct 1000000000 0 (DRaw [])); (carol, Acct 1000000000 0 (DRaw [])); (slasher, Acct 1000000000 0 (DRaw []));
    (atok, Acct (rent 165) 16 (tok kmint alice 400000)); (btok, Acct (rent 165) 16 (tok kmint bob 500000)) ] ++
  (if vault_lamports =? 0 then [] else [(kpda, Acct vault_lamports 0 (DRaw []))]) ++
  (if bob_lamports =? 0 then [] else [(bob, Acct bob_lamports 0 (DRaw []))]).
Definition tworld (v b : N) : world := list_to_map (taccounts v b).
Definition tx_end (v b : N) (l : list (list act)) : world :=
  match play_txs (tworld v b) l with Some w => w | None => ∅ end.
Definition tx_runs (v b : N) (l : list (list act)) : bool :=
  forallb genesis_okb (taccounts v b) && settled_b (tworld v b) && funded_b (tworld v b) &&
  match play_txs (tworld v b) l with Some _ => true | None => false end.
Lemma tx_end_chain v b l : tx_runs v b l = true -> chain denv (tx_end v b l).
Proof.
  unfold tx_runs, tx_end. rewrite !andb_true_iff. intros [[[A B] C] D].
  pose proof (genesis_of_list _ A) as G. fold (tworld v b) in G.
  pose proof (settled_b_ok _ B) as S. pose proof (funded_b_ok denv _ C) as F.
  destruct (play_txs (tworld v b) l) as [w|] eqn:E; [|discriminate].
  exists (tworld v b). split; [auto|]. split; [auto|]. split; [auto|].
  eapply play_txs_txs; eauto. exists (tworld v b), []. split; [auto|constructor].
Qed.
Definition base_txs : list (list act) :=
  [ [init_config; init_val vote1 alice]; [init_sol nat1 vote1 bob 1000];
    [stake_val vote1 alice atok alice 500]; [stake_sol nat1 bob btok bob 2000 0] ].
