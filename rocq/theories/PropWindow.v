(** The unstaking rate limit over a whole cooldown period. *)
From Verif Require Import Base Types Layout Instr Math External Processor Runtime History Spec SpecWindow
  WorldLemmas Effects Handlers Evolve Sane Wf Arith Totals Nets Caps Stakers Deposits Inv Window Demo PropState.

(** ** C11 *)
(** [U] tokens were unstaked from, and [S] staked into, config [ck] during the window. *)
Theorem C11_window_limit e ck t0 D b w w' U S : env_ok e -> reachable e w -> t0 + D < 2 ^ 64 ->
  window e ck t0 D b w w' U S -> 10000 * U <= b * (sum_of e w ck staked + S).
Proof.
  intros OK R T W. pose proof (open_window _ _ _ _ _ _ _ _ _ OK R T W) as L.
  assert (sum_of e w ck (open_before (t0 + D)) <= sum_of e w ck staked) as LE.
  { apply sum_of_le. intros d. unfold open_before. destruct (_ <? _); lia. }
  assert (b * (sum_of e w ck (open_before (t0 + D)) + S) <= b * (sum_of e w ck staked + S))
    by (apply N.mul_le_mono_l; lia). lia.
Qed.
Print Assumptions C11_window_limit.
(* Two unstakes with a move in between: half of the 2000 staked tokens leave, the
   moved tokens do not escape the limit. *)
Definition window_script : list act :=
  [ unstake ksol2 bob btok 400 5000 (5 * 10 ^ 18); unstake ksol1 bob btok 600 5500 (5 * 10 ^ 18);
    move nat1 nat2 bob 300 ].
Lemma window_step ck t0 D b w w1 a w2 U S : reachable denv w -> window denv ck t0 D b w w1 U S ->
  do w1 a = Some w2 -> in_window denv ck t0 D b w1 (event_of a) ->
  window denv ck t0 D b w w2 (U + unstaked_in ck w1 (event_of a)) (S + staked_in ck w1 (event_of a)).
Proof.
  intros R W E IN. econstructor; eauto. apply do_step; auto. apply (i_wf denv), inv_reachable; [apply denv_ok|].
  eapply window_reachable; eauto.
Qed.
Definition unstake_okb (ck t0 D b : N) (w : world) (ev : event) : bool :=
  match ev with
  | Do cx (CUnstakeTokens a n) =>
      (t0 <=? c_now cx) && (c_now cx <? t0 + D) &&
      match dat (get w ck) with DConfig c => (D <=? cfg_cooldown c) && (cfg_bps c <=? b) | _ => true end
  | _ => true
  end.
Lemma unstake_okb_in ck t0 D b w ev : unstake_okb ck t0 D b w ev = true -> in_window denv ck t0 D b w ev.
Proof.
  intros H cx a n cf -> _ [_ C]. simpl in H. rewrite C in H. rewrite !andb_true_iff in H.
  destruct H as [[A B] [E F]]. b2p A. b2p B. b2p E. b2p F. lia.
Qed.
Fixpoint play_window (ck t0 D b : N) (w : world) (U S : N) (l : list act) : option (world * N * N) :=
  match l with
  | [] => Some (w, U, S)
  | a :: l =>
      if unstake_okb ck t0 D b w (event_of a) then
        match do w a with
        | Some w' => play_window ck t0 D b w' (U + unstaked_in ck w (event_of a)) (S + staked_in ck w (event_of a)) l
        | None => None
        end
      else None
  end.
Lemma play_window_ok ck t0 D b w l : forall w1 U S, reachable denv w -> window denv ck t0 D b w w1 U S ->
  forall w2 U' S', play_window ck t0 D b w1 U S l = Some (w2, U', S') -> window denv ck t0 D b w w2 U' S'.
Proof.
  induction l as [|a l IH]; intros w1 U S R W w2 U' S'; simpl.
  - intros [= <- <- <-]. exact W.
  - destruct (unstake_okb _ _ _ _ _ _) eqn:B; [|discriminate]. destruct (do w1 a) as [w3|] eqn:E; [|discriminate].
    apply IH; auto. eapply window_step; eauto. now apply unstake_okb_in.
Qed.
Example C11_case : let w := at_end (firstn 14 story) in exists w',
  reachable denv w /\ window denv kcfg 5000 1000 5000 w w' 1000 0 /\ sum_of denv w kcfg staked = 2500 /\
  staked (s_del (sol_of w ksol1)) = 1200 /\ staked (s_del (sol_of w ksol2)) = 800 /\
  runs (firstn 14 story ++ window_script) = true /\
  (* nothing more comes out before time 6000 *)
  runs (firstn 14 story ++ window_script ++ [unstake ksol2 bob btok 1 5999 (5 * 10 ^ 18)]) = false /\
  runs (firstn 14 story ++ window_script ++ [unstake ksol1 bob btok 1 5999 (5 * 10 ^ 18)]) = false.
Proof.
  assert (reachable denv (at_end (firstn 14 story))) as R by (apply at_end_reachable; vm_compute; reflexivity).
  assert (match play_window kcfg 5000 1000 5000 (at_end (firstn 14 story)) 0 0 window_script with
          | Some (_, x, y) => (x =? 1000) && (y =? 0) | None => false end = true) as P by (vm_compute; reflexivity).
  destruct (play_window kcfg 5000 1000 5000 (at_end (firstn 14 story)) 0 0 window_script) as [[[w' x] y]|] eqn:E; [|discriminate].
  apply andb_true_iff in P as [P1 P2]. apply N.eqb_eq in P1, P2. subst x y. exists w'.
  split; [exact R|]. split.
  - exact (play_window_ok kcfg 5000 1000 5000 _ window_script _ 0 0 R (window_here _ _ _ _ _ _) _ _ _ E).
  - clear. vm_compute. auto 10.
Qed.
