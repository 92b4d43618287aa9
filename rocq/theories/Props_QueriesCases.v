(** Concrete cases of C205-C213, and the refuted claim C209. *)
From Coq Require Import ZArith List Bool Lia.
From Verif Require Import Base FMap Decimal Curve World Token Frame Stake Pool Stable Rewards Vest Factory Router Extra System SysFrame SysInv SysFact Script
  TokenProofs Props_Token Props_Pool Props_PoolCases Props_Stake Props_Vest Props_Rewards Props_StakeCases Props_VestCases Props_RewardsCases Props_Factory Props_FactoryCases.
From Verif Require Import Touch TouchErase Life LifeLemmas Props_Touch Props_TouchCases Footprint Props_Footprint.
From Verif Require Import Queries QueriesErase QueriesObs QueriesSim QueriesTime Props_Queries Props_Queries2.
Import ListNotations.
Open Scope list_scope.
Open Scope Z_scope.

(** ** C205: the portfolio of -2 in the ledger of Props_FactoryCases *)
Example C205_example : answer (QPortfolio 20 (-2) true) fW = Ok (AFolio ([((1, 999292), (2, 1998585))], [(fstake, [mkStakeE 4000 0])])) /\
  length (reads (QPortfolio 20 (-2) true) fW) = 44%nat /\ In (mkT fshare (YBal (-2)) Peek) (reads (QPortfolio 20 (-2) true) fW) /\
  In (mkT fp1 YTotal (Bump TP)) (reads (QPortfolio 20 (-2) true) fW).
Proof. split; [vm_compute; reflexivity|]. split; [vm_compute; reflexivity|]. split; vm_compute; auto 60. Qed.

(** ** C206, C207: a quote of a pool, before and after an unbonding, a payment and a day; and after a
    swap in that pool *)
Definition qquote : Query := QPoolSim fp1 1 1000.
Definition fU : World := result [-2] kunbond fW.
Example C206_example : answer qquote fW = Ok (ASim (mkSimSwap 1994 5 1 2000)) /\ agreeb (reads qquote fW) fW fU /\
  w_now fU = w_now fW /\ w_seq fU = w_seq fW /\ bal fU fshare (-2) <> bal fW fshare (-2).
Proof.
  split; [vm_compute; reflexivity|]. split.
  { unfold agreeb. let D := eval vm_compute in (reads qquote fW) in let E := fresh in assert (E : reads qquote fW = D) by (vm_compute; reflexivity); rewrite E; clear E;
    repeat (apply Forall_cons; [vm_compute; repeat split|]); apply Forall_nil. }
  split; [vm_compute; reflexivity|]. split; [vm_compute; reflexivity | vm_compute; discriminate].
Qed.
Lemma hits_un D1 D2 : forallb (fun x => negb (hits D2 (x_at x) (x_key x))) D1 = true -> forall c y, touched D1 c y -> ~ may_change D2 c y.
Proof. intros A. apply (proj1 (apart_spec D1 D2 A)). Qed.
Definition fU2 : World := set_time fU 86400 17280.
Definition fU3 : World := result [-4] (CTransfer 1 (-4) (-7) 5) fU2.
Example C207_example : timeless qquote = true /\
  untouched xH (reads qquote fW) fW [Tx (env_of [-2]) kunbond; Tick 86400 17280; Tx (env_of [-4]) (CTransfer 1 (-4) (-7) 5)] fU3 /\
  answer qquote fU3 = answer qquote fW /\ answer qquote (result [-2] kswap fW) = Ok (ASim (mkSimSwap 1990 5 1 1996)).
Proof.
  split; [reflexivity|]. split.
  { eapply un_tx with (w1 := fU) (D1 := record [-2] kunbond fW); [reflexivity | vm_compute; reflexivity | apply hits_un; vm_compute; reflexivity |].
    apply un_tick; [vm_compute; split; discriminate | vm_compute; split; discriminate |].
    eapply un_tx with (w1 := fU3) (D1 := record [-4] (CTransfer 1 (-4) (-7) 5) fU2); [reflexivity | vm_compute; reflexivity | apply hits_un; vm_compute; reflexivity |].
    apply un_nil. }
  split; [vm_compute; reflexivity | vm_compute; reflexivity].
Qed.
(** an answer that depends on the time: what has vested *)
Example C207_time : timeless (QVestClaimable 30 (-5) 0) = false /\ answer (QVestClaimable 30 (-5) 0) (world_of v1) <> answer (QVestClaimable 30 (-5) 0) (set_time (world_of v1) 125 2).
Proof. split; [reflexivity | vm_compute; discriminate]. Qed.

(** ** C208, C209: a third pool is created and never used; after 20000 ledgers the query of the first
    pool is served and extends what it reads, the listing and the portfolio of a holder of the first
    pool are not *)
Definition fp3 : Addr := xH 20 (SPair 1 3).
Definition tf0 : list LAct := acts (fsetup [-5] ++ fpools ++ [Do [-5] (CCreate 20 (-5) (finit 1 3) Xyk None 100 1000)] ++ ffund 1000000 2000000 ++
  [Do [-2] (CBond fstake (-2) 4000); Wait 5000 20000]).
Definition fserved (l : list LAct) (q : Query) : bool := match replay xm (w_seq (lw l)) (ll l) (reads q (lw l)) with Some _ => true | None => false end.
Example tf0_plays : lplays tf0 = true. Proof. vm_compute. reflexivity. Qed.
Definition arow : Answer := ARow fp1 frow.
Example tf0_answers : zanswer (QDetails 20 fp1) (lw tf0, []) = Ok (arow, (lw tf0, reads (QDetails 20 fp1) (lw tf0))) /\
  exists rows, zanswer (QAllDetails 20) (lw tf0, []) = Ok (ARows rows, (lw tf0, reads (QAllDetails 20) (lw tf0))) /\ map fst rows = [fp1; fp2; fp3].
Proof. split; [vm_compute; reflexivity|]. eexists. split; vm_compute; reflexivity. Qed.
Example C208_example : fserved tf0 (QDetails 20 fp1) = true /\ fserved tf0 (QAllDetails 20) = false /\ fserved tf0 (QPortfolio 20 (-2) false) = false /\
  ll tf0 fp3 YInst = Some 4095 /\ ll tf0 fp1 YTotal = Some 518400 /\
  (exists L', replay xm (w_seq (lw tf0)) (ll tf0) (reads (QDetails 20 fp1) (lw tf0)) = Some L' /\ L' fp1 YInst = Some (20000 + 7 * 17280)).
Proof.
  split; [vm_compute; reflexivity|]. split; [vm_compute; reflexivity|]. split; [vm_compute; reflexivity|]. split; [vm_compute; reflexivity|].
  split; [vm_compute; reflexivity|]. eexists. split; vm_compute; reflexivity.
Qed.
Theorem C209_listing_does_not_depend_on_idle_pools_refuted : ~ (forall H m w L f g p ap Dp a D, 1 <= m -> lreach H m w L -> fact_at w f g -> In p (f_lps g) ->
  zanswer (QDetails f p) (w, []) = Ok (ap, (w, Dp)) -> (exists L', replay m (w_seq w) L Dp = Some L') ->
  zanswer (QAllDetails f) (w, []) = Ok (a, (w, D)) -> exists L', replay m (w_seq w) L D = Some L').
Proof.
  intros C. assert (R : lreach xH xm (lw tf0) (ll tf0)) by (apply lplays_reach, tf0_plays).
  assert (F : exists g, fact_at (lw tf0) 20 g /\ f_lps g = [fp1; fp2; fp3]) by (eexists; split; vm_compute; reflexivity). destruct F as (g & F & Fl).
  destruct tf0_answers as (A & rows & B & _).
  assert (S : exists L', replay xm (w_seq (lw tf0)) (ll tf0) (reads (QDetails 20 fp1) (lw tf0)) = Some L').
  { destruct C208_example as (S & _). unfold fserved in S. destruct (replay _ _ _ _); [eauto | discriminate]. }
  destruct (C xH xm _ _ 20 g fp1 _ _ _ _ ltac:(unfold xm; lia) R F ltac:(rewrite Fl; left; reflexivity) A S B) as [L' X].
  destruct C208_example as (_ & N & _). unfold fserved in N. rewrite X in N. discriminate.
Qed.
Print Assumptions C209_listing_does_not_depend_on_idle_pools_refuted.
(** the portfolio of -2, who holds shares of the first pool only *)
Example C209_portfolio : exists a, zanswer (QPortfolio 20 (-2) false) (lw tf0, []) = Ok (a, (lw tf0, reads (QPortfolio 20 (-2) false) (lw tf0))) /\
  a = AFolio ([((1, 999292), (2, 1998585))], []) /\ fserved tf0 (QPortfolio 20 (-2) false) = false.
Proof. eexists. split; [vm_compute; reflexivity|]. split; [reflexivity | vm_compute; reflexivity]. Qed.

(** ** C210 *)
Example C210_example : exists i2, answer (QAllDetails 20) fW = Ok (ARows [(fp1, frow); (fp2, i2)]) /\ q_ta i2 = 2 /\ q_tb i2 = 3 /\ q_ra i2 = 0.
Proof. eexists. split; [vm_compute; reflexivity|]. vm_compute. auto. Qed.
(** ** C211: after a distribution and a withdrawal *)
Example C211_example : exists r k, rewards_at (world_of r4) 30 r /\ fget (r_token r) (w_tok (world_of r4)) = Some k /\
  answer (QDistributed 30 (r_token r)) (world_of r4) = Ok (AInt (r_dist r)) /\ 0 < r_wdr r < r_dist r /\
  answer (QUndistributed 30 (r_token r)) (world_of r4) = Ok (AInt (bal (world_of r4) (r_token r) 30 - r_wdr r)) /\
  answer (QUndistributed 30 99) (world_of r4) = Err EPanic.
Proof. eexists _, _. split; [vm_compute; reflexivity|]. split; [vm_compute; reflexivity|]. vm_compute. auto 10. Qed.
(** ** C212 *)
Example C212_example : present fW fp1 YSlip = true /\ present fW fp1 YAdmin = true /\ present fW fp1 YTotal = true /\
  In (mkT fp1 YTotal (Bump TP)) (reads (QPoolTotal fp1) fW) /\ present fW 20 (YPair 1 2) = true /\ In (mkT 20 (YPair 1 2) Peek) (reads (QPairPool 20 1 2) fW).
Proof. vm_compute. auto 20. Qed.
(** ** C213 *)
Example C213_shares_example : answer (QPoolTotal fp1) fW = Ok (AInt (q_total frow)) /\ 0 < q_total frow. Proof. vm_compute. auto. Qed.
Example C213_example : answer (QPoolInfo fp1) fW = Ok (ARow fp1 frow) /\ bal fW 1 fp1 = 1000000 /\
  answer (QTotalStaked 20) (world_of s1) = Ok (AInt 1000) /\
  answer (QStaked 20 (-2)) (world_of s1) = Ok (AStaked (mkBonding [mkStakeE 600 1000] 0 600)) /\ answer (QVestHeld 30) (world_of v1) = Ok (AInt 1600).
Proof. vm_compute. auto. Qed.
