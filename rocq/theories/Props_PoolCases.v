(** Properties of the constant-product pool: concrete cases for the theorems of Props_Pool and the
    refuted claims (C12, C17, C18, C23, C25, C26, C73). *)
From Coq Require Import ZArith List Bool Lia.
From Coq Require Import ZifyBool.
From Verif Require Import Base FMap Decimal DecimalProofs Curve World Token TokenProofs Frame Stake Pool PoolProofs
  Stable StableProofs Rewards Vest Factory Router System SysFrame SysInv SysPool SysStable SysSupply Script Props_Token Props_Pool.
Import ListNotations.
Open Scope Z_scope.

(** ** Concrete cases and refutations *)
(** two tokens, funded accounts -2 and -4, a pool at address 10 with the given fee and spread limit *)
Definition xinit (fee spread : Z) : PoolInit := mkPoolInit (-1) fee (-3) 500 100 spread 500 1 2 10 5 (-1) 10.
Definition xsetup (fee spread : Z) : list Act :=
  [ Do [] (CDeployTok 1 (-1) 7); Do [] (CDeployTok 2 (-1) 7);
    Do [-1] (CMint 1 (-2) (10^15)); Do [-1] (CMint 2 (-2) (10^15));
    Do [-1] (CMint 1 (-4) (10^15)); Do [-1] (CMint 2 (-4) (10^15));
    Do [] (CDeploy 10 KPool); Do [] (CPoolInit 10 (xinit fee spread) (-9) 7 100 1000) ].
Definition xfund (a b : Z) : list Act := [Do [-2] (CPoolProvide 10 (-2) (Some a) None (Some b) None None None)].
Definition xshare : Addr := xH 10 (SPair 1 2).
(** an ordinary pool: 30 bps fee, 10% spread limit, reserves 1000000 and 2000000 *)
Definition xW : World := world_of (xsetup 30 1000 ++ xfund 1000000 2000000).
Example xW_reach : reachable xH xW.
Proof. apply world_reach; vm_compute; reflexivity. Qed.
Definition xP : Pool := mkPool 1 2 xshare (xH 10 SEmpty) 30 (-3) 500 1000 500 100 (-1) 1414213 1000000 2000000.
Example xW_pool : pool_at xW 10 xP. Proof. vm_compute. reflexivity. Qed.

Example C06_example : 0 < p_ra xP /\ p_ra xP = bal xW 1 10 /\ p_rb xP = bal xW 2 10. Proof. vm_compute. auto. Qed.

Lemma fget_keys {V} k (v : V) m : fget k m = Some v -> In k (fkeys m).
Proof.
  induction m as [|[k' v'] m IH]; simpl; [discriminate|].
  destruct (k <? k'); [discriminate|]. destruct (Z.eqb_spec k k'); auto.
Qed.
Fixpoint nodupb (l : list Z) : bool := match l with [] => true | a :: tl => negb (existsb (Z.eqb a) tl) && nodupb tl end.
Lemma nodupb_ok l : nodupb l = true -> NoDup l.
Proof.
  induction l as [|a l IH]; simpl; intros H; constructor; try apply IH; [|lia].
  intros I. assert (existsb (Z.eqb a) l = true) by (apply existsb_exists; exists a; split; [auto|apply Z.eqb_refl]). lia.
Qed.
Lemma holders_check w t l : nodupb l = true ->
  match fget t (w_tok w) with Some k => forallb (fun a => existsb (Z.eqb a) l) (fkeys (t_bal k)) | None => true end = true ->
  holders w t l.
Proof.
  intros N F. split; [apply nodupb_ok; auto|]. intros a Na. unfold bal, tk_balance in Na.
  destruct (fget t (w_tok w)) as [k|]; [|congruence].
  unfold fgetd in Na. destruct (fget a (t_bal k)) eqn:E; [|congruence]. apply fget_keys in E.
  rewrite forallb_forall in F. specialize (F _ E). apply existsb_exists in F. destruct F as [b [Ib Eb]].
  apply Z.eqb_eq in Eb. subst. auto.
Qed.

Example C07_example : holders xW xshare [10; -2] /\ total_of xW xshare [10; -2] = p_total xP /\
  run_if (no_direct_burn xshare) xH w_empty (map event_of (xsetup 30 1000 ++ xfund 1000000 2000000)) xW.
Proof.
  split; [apply holders_check; vm_compute; reflexivity|]. split; [vm_compute; reflexivity|].
  apply run_if_all; [|apply play_run; vm_compute; reflexivity]. repeat constructor.
Qed.
(** burning shares directly leaves the total above the supply *)
Example C07_direct_burn : exists w, reachable xH w /\ pool_at w 10 xP /\ supply w xshare = p_total xP - 500.
Proof.
  exists (world_of (xsetup 30 1000 ++ xfund 1000000 2000000 ++ [Do [-2] (CBurn xshare (-2) 500)])).
  split; [apply world_reach; vm_compute; reflexivity|]. vm_compute. repeat split.
Qed.
Example C08_example : p_total xP <> 0 /\ bal xW xshare 10 = 1000 /\
  exists w', pool_provide (env_of [-4]) None 10 (-4) (Some 500) None (Some 1000) None None None xW = Ok (tt, w').
Proof. split; [discriminate|]. split; [vm_compute; reflexivity|]. eexists. vm_compute. reflexivity. Qed.
Example C09_example : exists w', pool_withdraw (env_of [-2]) None 10 (-2) 10000 1 1 None xW = Ok ((7071, 14142), w') /\
  bal w' xshare (-2) = 1403213 /\ bal w' 1 (-2) = 10^15 - 1000000 + 7071.
Proof. eexists. vm_compute. repeat split. Qed.
Example C10_C18_example : exists w' p',
  pool_provide (env_of [-4]) None 10 (-4) (Some 1000) (Some 900) (Some 2005) (Some 1900) None (Some 5) xW = Ok (tt, w') /\
  pool_at w' 10 p' /\ p_total p' = 1415627 /\ p_ra p' = 1001000 /\ p_rb p' = 2002000 /\ bal w' xshare (-4) = 1414.
Proof. eexists _, _. vm_compute. repeat split. Qed.
Example C11_C13_C14_C15_example : exists w' p',
  pool_swap (env_of [-4]) None 10 (-4) 1 1000 (Some 1900) (Some 500) (Some 9) (Some 30) xW = Ok (1994, w') /\
  pool_at w' 10 p' /\ p_ra p' = 1001000 /\ p_rb p' = 1998001 /\ bal w' 2 (-3) = 5 /\
  bal w' 2 (-4) = 10^15 + 1994 /\ bal w' 1 (-4) = 10^15 - 1000.
Proof. eexists _, _. vm_compute. repeat split. Qed.
Example C16_example : pool_simulate_swap 10 1 1000 xW = Ok (mkSimSwap 1994 5 1 2000, xW).
Proof. vm_compute. reflexivity. Qed.
Example C72_example : pool_query_share 10 10000 xW = Ok ((7071, 14142), xW).
Proof. vm_compute. reflexivity. Qed.

(** C12: the fee leaves the pool and the bought reserve is rounded down, so an ordinary swap
    lowers the product of the reserves. *)
Theorem C12_product_never_falls_refuted : exists w w' ret p p',
  reachable xH w /\ pool_swap (env_of [-4]) None 10 (-4) 1 1000 None None None None w = Ok (ret, w') /\
  pool_at w 10 p /\ pool_at w' 10 p' /\ p_ra p' * p_rb p' < p_ra p * p_rb p.
Proof.
  exists xW, (after (pool_swap (env_of [-4]) None 10 (-4) 1 1000 None None None None xW)), 1994, xP, (set_p_res xP 1001000 1998001).
  split; [apply xW_reach|]. vm_compute. repeat split.
Qed.
Print Assumptions C12_product_never_falls_refuted.

(** C17: with reserves 5000000 and 10^9 and a fee of 30 bps the pool quotes an offer of 5 for 1196 units,
    but swapping 5 returns 997. *)
Definition xR : World := world_of (xsetup 30 1000 ++ xfund 5000000 1000000000).
Theorem C17_reverse_quote_sufficient_refuted : exists w r w' ret,
  reachable xH w /\ pool_simulate_reverse 10 2 1196 w = Ok (r, w) /\ sr_offer r = 5 /\
  pool_swap (env_of [-4]) None 10 (-4) 1 (sr_offer r) None None None None w = Ok (ret, w') /\ ret = 997.
Proof.
  exists xR, (mkSimReverse 5 3 (-199)), (after (pool_swap (env_of [-4]) None 10 (-4) 1 5 None None None None xR)), 997.
  split; [apply world_reach; vm_compute; reflexivity|]. vm_compute. repeat split.
Qed.
Print Assumptions C17_reverse_quote_sufficient_refuted.
Example C17_plus_one_example : exists w',
  pool_simulate_reverse 10 2 1196 xR = Ok (mkSimReverse 5 3 (-199), xR) /\
  pool_swap (env_of [-4]) None 10 (-4) 1 (5 + 1) None None None None xR = Ok (1197, w').
Proof. eexists. vm_compute. repeat split. Qed.

(** C18: a first deposit ignores the minimum. *)
Theorem C18_first_deposit_minimum_refuted : exists w w' p,
  reachable xH w /\ pool_at w 10 p /\ p_total p = 0 /\
  pool_provide (env_of [-2]) None 10 (-2) (Some 2000) (Some 3000) (Some 2000) (Some 3000) None None w = Ok (tt, w') /\
  bal w' 1 (-2) = bal w 1 (-2) - 2000.
Proof.
  exists (world_of (xsetup 30 1000)),
    (after (pool_provide (env_of [-2]) None 10 (-2) (Some 2000) (Some 3000) (Some 2000) (Some 3000) None None (world_of (xsetup 30 1000)))),
    (set_p_res (set_p_total xP 0) 0 0).
  split; [apply world_reach; vm_compute; reflexivity|]. vm_compute. repeat split.
Qed.
Print Assumptions C18_first_deposit_minimum_refuted.

Example C19_example : exists w1 p1 w3,
  pool_provide (env_of [-4]) None 10 (-4) (Some 1000) None (Some 2000) None None None xW = Ok (tt, w1) /\
  pool_at w1 10 p1 /\ bal xW 1 10 = p_ra xP /\ bal xW 2 10 = p_rb xP /\ p_total p1 - p_total xP = 1414 /\
  pool_withdraw (env_of [-4]) None 10 (-4) 1414 1 1 None w1 = Ok ((999, 1999), w3).
Proof.
  set (w1 := after (pool_provide (env_of [-4]) None 10 (-4) (Some 1000) None (Some 2000) None None None xW)).
  exists w1, (set_p_res (set_p_total xP 1415627) 1001000 2002000), (after (pool_withdraw (env_of [-4]) None 10 (-4) 1414 1 1 None w1)).
  vm_compute. repeat split.
Qed.

(** C73: with donated tokens the depositor is credited with the donation: depositing 1000 and 2000
    into a pool that was sent 100000 and 200000 mints shares worth ten times the deposit. *)
Definition xD : list Act := xsetup 30 1000 ++ xfund 1000000 2000000 ++
  [Do [-2] (CTransfer 1 (-2) 10 100000); Do [-2] (CTransfer 2 (-2) 10 200000)].
Theorem C73_deposit_profits_from_donations_refuted : exists w w1 p1 w3 a b,
  reachable xH w /\ reachable xH w1 /\ pool_at w 10 xP /\
  pool_provide (env_of [-4]) None 10 (-4) (Some 1000) None (Some 2000) None None None w = Ok (tt, w1) /\
  pool_at w1 10 p1 /\
  pool_withdraw (env_of [-4]) None 10 (-4) (p_total p1 - p_total xP) 1 1 None w1 = Ok ((a, b), w3) /\
  bal w1 1 (-4) = bal w 1 (-4) - 1000 /\ bal w1 2 (-4) = bal w 2 (-4) - 2000 /\ a = 100999 /\ b = 201999.
Proof.
  set (l1 := xD ++ [Do [-4] (CPoolProvide 10 (-4) (Some 1000) None (Some 2000) None None None)]).
  exists (world_of xD), (world_of l1), (set_p_res (set_p_total xP 1557048) 1101000 2202000),
    (after (pool_withdraw (env_of [-4]) None 10 (-4) 142835 1 1 None (world_of l1))), 100999, 201999.
  split; [apply world_reach; vm_compute; reflexivity|]. split; [apply world_reach; vm_compute; reflexivity|].
  vm_compute. repeat split.
Qed.
Print Assumptions C73_deposit_profits_from_donations_refuted.

Example C20_example : (exists w1 w3,
  pool_swap (env_of [-4]) None 10 (-4) 1 1000 None None None None xW = Ok (1994, w1) /\
  pool_swap (env_of [-4]) None 10 (-4) 2 1994 None None None None w1 = Ok (996, w3)) /\
  side xP 1 1000000 2000000 2 /\ 1000 - 1 <= (5 - 1) * 1000000.
Proof.
  split; [|split; [left; repeat split|lia]].
  set (w1 := after (pool_swap (env_of [-4]) None 10 (-4) 1 1000 None None None None xW)).
  exists w1, (after (pool_swap (env_of [-4]) None 10 (-4) 2 1994 None None None None w1)). vm_compute. repeat split.
Qed.
(** without a fee the trip can gain the rounding unit *)
Example C20_rounding_gain :
  let w := world_of (xsetup 0 1000 ++ xfund 2000000 1000000) in
  exists w1, pool_swap (env_of [-4]) None 10 (-4) 1 1000 None None None None w = Ok (500, w1) /\
  exists w3, pool_swap (env_of [-4]) None 10 (-4) 2 500 None None None None w1 = Ok (1001, w3).
Proof.
  intros w. set (w1 := after (pool_swap (env_of [-4]) None 10 (-4) 1 1000 None None None None w)).
  exists w1. split; [vm_compute; reflexivity|].
  exists (after (pool_swap (env_of [-4]) None 10 (-4) 2 500 None None None None w1)). vm_compute. reflexivity.
Qed.

(** C21 needs the reserve of 4: with 3 units and a limit of 100% a swap empties the reserve *)
Example C21_example : side xP 1 1000000 2000000 2 /\ 4 <= 2000000.
Proof. split; [left; repeat split|lia]. Qed.
Example C21_three_units : exists w' p',
  let w := world_of (xsetup 0 10000 ++ xfund 1000000 3) in
  pool_swap (env_of [-4]) None 10 (-4) 1 2000001 None None None None w = Ok (3, w') /\
  pool_at w' 10 p' /\ p_rb p' = 0.
Proof. eexists _, _. vm_compute. repeat split. Qed.
Example C22_example : p_fee xP = 30 /\ p_maxspread xP = 1000. Proof. split; vm_compute; reflexivity. Qed.

(** C23: upgrade stores any default slippage *)
Theorem C23_default_slippage_valid_refuted : exists w p, reachable xH w /\ pool_at w 10 p /\ p_defslip p = 20000.
Proof.
  exists (world_of (xsetup 30 1000 ++ [Do [-1] (CPoolUpgrade 10 7 20000)])),
    (mkPool 1 2 xshare (xH 10 SEmpty) 30 (-3) 500 1000 500 20000 (-1) 0 0 0).
  split; [apply world_reach; vm_compute; reflexivity|]. vm_compute. repeat split.
Qed.
Print Assumptions C23_default_slippage_valid_refuted.
Example C24_example : exists w' p', exec (env_of [-1]) (CPoolConfig 10 (Some (-7)) (Some 40) None None None None) xW = Ok (tt, w') /\
  pool_at w' 10 p' /\ p_admin p' = -7 /\ p_fee p' = 40 /\ p_ra p' = 1000000.
Proof. eexists _, _. vm_compute. repeat split. Qed.

(** C25: a pool reaches the frozen state by one swap, even with a spread limit of 0 *)
Definition xZ : list Act := xsetup 0 1000 ++ xfund 1000000 2 ++ [Do [-4] (CPoolSwap 10 (-4) 1 1000001 None (Some 0) None None)].
Definition xZP : Pool := mkPool 1 2 xshare (xH 10 SEmpty) 0 (-3) 500 1000 500 100 (-1) 1414 2000001 0.
Theorem C25_pool_keeps_accepting_deposits_refuted : exists w p, reachable xH w /\ pool_at w 10 p /\ p_total p = 1414 /\
  p_ra p = 2000001 /\ p_rb p = 0 /\
  forall e d u da mina db minb custom dl w1, d <> Some 10 -> pool_provide e d 10 u da mina db minb custom dl w <> Ok (tt, w1).
Proof.
  exists (world_of xZ), xZP.
  assert (R : reachable xH (world_of xZ)) by (apply world_reach; vm_compute; reflexivity).
  assert (P : pool_at (world_of xZ) 10 xZP) by (vm_compute; reflexivity).
  split; [exact R|]. split; [exact P|]. split; [reflexivity|]. split; [reflexivity|]. split; [reflexivity|].
  refine (proj1 (proj2 (C25_drained_pool_is_frozen _ _ [] _ 10 _ R (run_nil _ _) P _ _))); [discriminate|right; reflexivity].
Qed.
Print Assumptions C25_pool_keeps_accepting_deposits_refuted.

(** C26: a deposit that is rounded to 999999 of token A and nothing of token B mints no share *)
Theorem C26_deposits_mint_shares_refuted : exists w w', reachable xH w /\
  pool_provide (env_of [-4]) None 10 (-4) (Some 999999) None (Some 1) None None None w = Ok (tt, w') /\
  bal w' 1 (-4) = bal w 1 (-4) - 999999 /\ bal w' xshare (-4) = bal w xshare (-4).
Proof.
  set (w := world_of (xsetup 30 1000 ++ xfund 100000000 100)).
  exists w, (after (pool_provide (env_of [-4]) None 10 (-4) (Some 999999) None (Some 1) None None None w)).
  split; [apply world_reach; vm_compute; reflexivity|]. vm_compute. repeat split.
Qed.
Print Assumptions C26_deposits_mint_shares_refuted.
