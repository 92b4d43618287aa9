(** Events: concrete cases for the theorems of Props_Events, and what the events do not tell
    (C169-C173). *)
From Coq Require Import ZArith List Bool String Lia.
From Coq Require Import ZifyBool.
From Verif Require Import Base FMap Decimal DecimalProofs Curve World Token TokenProofs Frame Stake Pool PoolProofs
  Stable StableProofs Rewards Vest Factory Router System SysFrame SysInv SysPool SysStable SysSupply
  SysVest SysStake SysRewards SysFact Script Runs Props_Token Props_Pool Props_PoolCases Props_Stable Props_StableCases
  Props_Vest Props_VestCases Props_Stake Props_StakeCases Props_Rewards Props_RewardsCases Props_Factory Props_FactoryCases
  Props_Router Props_RouterCases Events EventsErase EventsLog EventsTok EventsExact EventsExact2 EventsReplay EventsBooks Props_Events.
Import ListNotations.
Open Scope string_scope.
Open Scope list_scope.
Open Scope Z_scope.

(** ** Scripts with their events *)
Fixpoint lplay (l : list Act) (w : World) : option (World * Log) :=
  match l with
  | [] => Some (w, [])
  | a :: tl =>
      match a with
      | Do sg k => match lexec (env_of sg) k (w, []) with
                   | Ok (_, (w1, L1)) => match lplay tl w1 with Some (w2, L2) => Some (w2, L1 ++ L2) | None => None end
                   | Err _ => None
                   end
      | Wait n s => if (w_now w <=? n) && (n <=? U64_MAX) && (w_seq w <=? s) && (s <=? U32_MAX)
                    then lplay tl (set_time w n s) else None
      end
  end.
Lemma lplay_lrun l : forall w w' L, lplay l w = Some (w', L) -> lrun xH w (map event_of l) w' L.
Proof.
  induction l as [|a l IH]; simpl; intros w w' L X; [inversion X; constructor|].
  destruct a as [sg k|n s]; simpl.
  - destruct (lexec (env_of sg) k (w, [])) as [[[] [w1 L1]]|] eqn:Ex; [|discriminate].
    destruct (lplay l w1) as [[w2 L2]|] eqn:Pl; [|discriminate]. inversion X; subst.
    eapply lr_tx; [reflexivity|exact Ex|apply IH; exact Pl].
  - destruct (_ && _) eqn:B in X; [|discriminate]. apply lr_tick; [lia|lia|apply IH; exact X].
Qed.
Definition log_of (l : list Act) : Log := match lplay l w_empty with Some (_, L) => L | None => [] end.
Definition lw_of (l : list Act) : World := match lplay l w_empty with Some (w, _) => w | None => w_empty end.
Definition lplays (l : list Act) : bool := match lplay l w_empty with Some _ => true | None => false end.
Lemma log_run l : lplays l = true -> lrun xH w_empty (map event_of l) (lw_of l) (log_of l).
Proof.
  unfold lplays, lw_of, log_of. intros X. destruct (lplay l w_empty) as [[w L]|] eqn:E; [|discriminate].
  apply lplay_lrun. exact E.
Qed.

(** ** Concrete cases *)
(** a pool with a deposit, a swap and a withdrawal, and a transfer out of an allowance *)
Definition eacts : list Act := xsetup 30 1000 ++ xfund 1000000 2000000 ++
  [Do [-4] (CPoolSwap 10 (-4) 1 1000 None None None None); Do [-2] (CPoolWithdraw 10 (-2) 10000 1 1 None);
   Do [-4] (CApprove 1 (-4) (-7) 500 50); Do [-7] (CTransferFrom 1 (-7) (-4) (-8) 200)].
Example C161_example : lrun xH w_empty (map event_of eacts) (world_of eacts) (log_of eacts) /\
  bal (world_of eacts) 1 (-8) = 200 /\ bal (world_of eacts) 1 10 = 1001000 - 7078 /\ supply (world_of eacts) 1 = 2 * 10^15 /\
  List.length (log_of eacts) = 37%nat.
Proof.
  assert (E : lw_of eacts = world_of eacts) by (vm_compute; reflexivity).
  split; [rewrite <- E; apply log_run; vm_compute; reflexivity|]. vm_compute. repeat split.
Qed.
Definition logged (sg : list Addr) (k : Call) (w : World) : option Log :=
  match lexec (env_of sg) k (w, []) with Ok (_, (_, L)) => Some L | Err _ => None end.
Example C162_example : side xP 1 1000000 2000000 2 /\
  logged [-4] (CPoolSwap 10 (-4) 1 1000 (Some 1900) None None None) xW =
  Some [(1, TTransfer (-4) 10 1000); (2, TTransfer 10 (-4) 1994); (2, TTransfer 10 (-3) 5);
        (10, Pub "swap" "sender" (VZ (-4))); (10, Pub "swap" "sell_token" (VZ 1));
        (10, Pub "swap" "offer_amount" (VZ 1000)); (10, Pub "swap" "actual received amount" (VZ 1000));
        (10, Pub "swap" "buy_token" (VZ 2)); (10, Pub "swap" "return_amount" (VZ 1994));
        (10, Pub "swap" "spread_amount" (VZ 1)); (10, Pub "swap" "referral_fee_amount" (VZ 0))].
Proof. split; [left; vm_compute; repeat split|vm_compute; reflexivity]. Qed.
Example C162_stable_example : exists L, logged [-4] (CStableSwap 20 (-4) 1 1000000 None None None None) yW = Some L /\
  In (20, Pub "swap" "return_amount" (VZ 982858)) L /\ In (20, Pub "swap" "spread_amount" (VZ 14185)) L /\ List.length L = 9%nat.
Proof. eexists. split; [vm_compute; reflexivity|]. simpl. tauto. Qed.
Example C163_example :
  logged [-2] (CPoolWithdraw 10 (-2) 10000 1 1 None) xW =
    Some [(xshare, TTransfer (-2) 10 10000); (xshare, TBurn 10 10000); (1, TTransfer 10 (-2) 7071); (2, TTransfer 10 (-2) 14142);
          (10, Pub "withdraw_liquidity" "sender" (VZ (-2))); (10, Pub "withdraw_liquidity" "shares_amount" (VZ 10000));
          (10, Pub "withdraw_liquidity" "return_amount_a" (VZ 7071)); (10, Pub "withdraw_liquidity" "return_amount_b" (VZ 14142))] /\
  logged [-4] (CPoolProvide 10 (-4) (Some 1000) None (Some 2005) None None None) xW =
    Some [(1, TTransfer (-4) 10 1000); (2, TTransfer (-4) 10 2000); (xshare, TMint 10 (-4) 1414);
          (10, Pub "provide_liquidity" "sender" (VZ (-4))); (10, Pub "provide_liquidity" "token_a" (VZ 1));
          (10, Pub "provide_liquidity" "token_a-amount" (VZ 1000)); (10, Pub "provide_liquidity" "token_b" (VZ 2));
          (10, Pub "provide_liquidity" "token_b-amount" (VZ 2000))].
Proof. split; vm_compute; reflexivity. Qed.
Example C163_first_deposit_example : exists L,
  logged [-2] (CPoolProvide 10 (-2) (Some 1000000) None (Some 2000000) None None None) (world_of (xsetup 30 1000)) = Some L /\
  In (xshare, TMint 10 10 1000) L /\ In (xshare, TMint 10 (-2) 1413213) L.
Proof. eexists. split; [vm_compute; reflexivity|]. simpl. tauto. Qed.
Example C163_stable_example : exists L1 L2,
  logged [-2] (CStableWithdraw 20 (-2) 10000 1 1 None) yW = Some L1 /\
  logged [-4] (CStableProvide 20 (-4) 3000 1000 None None None) yW = Some L2 /\
  In (20, Pub "withdraw_liquidity" "return_amount_a" (VZ 5000)) L1 /\ In (20, Pub "provide_liquidity" "token_a-amount" (VZ 3000)) L2.
Proof. eexists _, _. split; [vm_compute; reflexivity|]. split; [vm_compute; reflexivity|]. simpl. tauto. Qed.

Definition sacts : list Act := s1 ++ [Do [-2] (CUnbond 20 (-2) 600 1000); Do [-2] (CBond 20 (-2) 50); Do [-3] (CBond 20 (-3) 70)].
Example C164_example : lrun xH w_empty (map event_of sacts) (lw_of sacts) (log_of sacts) /\
  fold_left (hear_stake 20 (-2)) (log_of sacts) (0, (0, 0)) = (-3, (50, 520)) /\
  exists s, stake_at (lw_of sacts) 20 s /\ staked s (-2) = 50 /\ s_total s = 520.
Proof.
  split; [apply log_run; vm_compute; reflexivity|]. split; [vm_compute; reflexivity|].
  eexists. split; [vm_compute; reflexivity|]. vm_compute. auto.
Qed.
Definition facts : list Act := fsetup [-5] ++ fpools.
Example C165_example : lrun xH w_empty (map event_of facts) (lw_of facts) (log_of facts) /\
  exists f, fact_at (lw_of facts) 20 f /\ f_lps f = [fp1; fp2].
Proof. split; [apply log_run; vm_compute; reflexivity|]. eexists. split; vm_compute; reflexivity. Qed.
Example C166_example : lrun xH w_empty (map event_of r4) (lw_of r4) (log_of r4) /\
  exists r, rewards_at (lw_of r4) 30 r /\ r_dist r = 10000 /\ r_wdr r = 7000 /\
  In (30, Pub "withdraw_rewards" "reward_amount" (VZ 3000)) (log_of r4).
Proof.
  split; [apply log_run; vm_compute; reflexivity|].
  eexists. split; [vm_compute; reflexivity|]. split; [vm_compute; reflexivity|]. split; [vm_compute; reflexivity|].
  vm_compute. tauto.
Qed.
Definition macts : list Act := v0 ++ [Do [-1] (CVestCapacity 30 (-1) 300); Do [-6] (CVestMint 30 (-6) 120); Do [-6] (CVestMinter 30 (-6) (-8))].
Example C167_example : lrun xH w_empty (map event_of macts) (lw_of macts) (log_of macts) /\
  fold_left (hear_vest 30) (log_of macts) (None, None) = (Some (-8), Some 180).
Proof. split; [apply log_run|]; vm_compute; reflexivity. Qed.
Example C168_example : exists L1 L2,
  logged [-4] (CPoolSwap fp1 (-4) 1 10000 (Some 19000) None None None) rW = Some L1 /\
  logged [-4] (CStableSwap fp2 (-4) 2 19743 (Some 19600) None None None)
    (after (exec (env_of [-4]) (CPoolSwap fp1 (-4) 1 10000 (Some 19000) None None None) rW)) = Some L2 /\
  logged [-4] (CHopSwap rhop (-4) rops None 10000 None None) rW = Some (L1 ++ L2) /\ List.length (L1 ++ L2) = 20%nat.
Proof.
  eexists _, _. split; [vm_compute; reflexivity|]. split; [vm_compute; reflexivity|]. split; vm_compute; reflexivity.
Qed.

(** ** What the events do not tell *)
(** C169: nobody can see from the events that the fee of a pool, or who collects it, was changed: two
    histories with the same events, one of which ends with a fee of 10% paid to -7 *)
Definition cacts (k : list Act) : list Act := xsetup 30 1000 ++ xfund 1000000 2000000 ++ k.
Theorem C169_settings_change_silently_refuted : exists l1 l2 w1 w2 L p1 p2,
  lrun xH w_empty l1 w1 L /\ lrun xH w_empty l2 w2 L /\ pool_at w1 10 p1 /\ pool_at w2 10 p2 /\
  p_fee p1 = 30 /\ p_fee p2 = 1000 /\ p_feerec p1 = -3 /\ p_feerec p2 = -7 /\ p_admin p1 = -1 /\ p_admin p2 = -7.
Proof.
  exists (map event_of (cacts [])), (map event_of (cacts [Do [-1] (CPoolConfig 10 (Some (-7)) (Some 1000) (Some (-7)) None None None)])),
    (lw_of (cacts [])), (lw_of (cacts [Do [-1] (CPoolConfig 10 (Some (-7)) (Some 1000) (Some (-7)) None None None)])), (log_of (cacts [])).
  eexists _, _. split; [apply log_run; vm_compute; reflexivity|].
  split. { assert (E : log_of (cacts []) = log_of (cacts [Do [-1] (CPoolConfig 10 (Some (-7)) (Some 1000) (Some (-7)) None None None)]))
             by (vm_compute; reflexivity). rewrite E. apply log_run; vm_compute; reflexivity. }
  split; [vm_compute; reflexivity|]. split; [vm_compute; reflexivity|]. vm_compute. repeat split.
Qed.
Print Assumptions C169_settings_change_silently_refuted.
Theorem C169_silent_calls e k w w' L : lexec e k (w, []) = Ok (tt, (w', L)) ->
  match k with
  | CPoolConfig _ _ _ _ _ _ _ | CPoolUpdate _ _ | CPoolUpgrade _ _ _ | CStableConfig _ _ _ _ _ _ _ | CStableUpgrade _ _
  | CStakeUpdate _ _ | CRewUpdate _ _ | CVestUpdate _ _ | CWhitelist _ _ _ _ | CHashes _ _ _ _ | CFactUpdate _ _ _ | CHopUpdate _ _ => L = []
  | _ => True
  end.
Proof.
  destruct k; auto; intros X; apply lf_ok in X; destruct X as [w1 [_ X]]; inversion X; reflexivity.
Qed.
Print Assumptions C169_silent_calls.

(** C170: the events of a pool do not determine its reserves: tokens sent to it enter the reserves at
    the next deposit, whose events are the same as without them *)
Definition own (c : Addr) (L : Log) : Log := filter (fun x => fst x =? c) L.
Definition gift (l : list Act) : list Act := cacts (l ++ [Do [-4] (CPoolProvide 10 (-4) (Some 1000) None (Some 2000) None None None)]).
Theorem C170_pool_events_miss_reserves_refuted : exists l1 l2 w1 w2 L1 L2 p1 p2,
  lrun xH w_empty l1 w1 L1 /\ lrun xH w_empty l2 w2 L2 /\ own 10 L1 = own 10 L2 /\
  pool_at w1 10 p1 /\ pool_at w2 10 p2 /\ p_ra p1 = 1001000 /\ p_ra p2 = 1501000.
Proof.
  exists (map event_of (gift [])), (map event_of (gift [Do [-4] (CTransfer 1 (-4) 10 500000)])),
    (lw_of (gift [])), (lw_of (gift [Do [-4] (CTransfer 1 (-4) 10 500000)])),
    (log_of (gift [])), (log_of (gift [Do [-4] (CTransfer 1 (-4) 10 500000)])).
  eexists _, _. split; [apply log_run; vm_compute; reflexivity|]. split; [apply log_run; vm_compute; reflexivity|].
  split; [vm_compute; reflexivity|]. split; [vm_compute; reflexivity|]. split; [vm_compute; reflexivity|]. vm_compute. repeat split.
Qed.
Print Assumptions C170_pool_events_miss_reserves_refuted.

(** C171: allowances cannot be reconstructed: which spender used an allowance is not published *)
Definition aacts (sp : Addr) : list Act :=
  [Do [] (CDeployTok 1 (-1) 7); Do [-1] (CMint 1 (-2) 1000); Do [-2] (CApprove 1 (-2) (-4) 500 50);
   Do [-2] (CApprove 1 (-2) (-5) 500 50); Do [sp] (CTransferFrom 1 sp (-2) (-8) 300)].
Theorem C171_events_miss_allowances_refuted : exists l1 l2 w1 w2 L,
  lrun xH w_empty l1 w1 L /\ lrun xH w_empty l2 w2 L /\
  tok_allowance 1 (-2) (-4) w1 = Ok (200, w1) /\ tok_allowance 1 (-2) (-4) w2 = Ok (500, w2).
Proof.
  exists (map event_of (aacts (-4))), (map event_of (aacts (-5))), (lw_of (aacts (-4))), (lw_of (aacts (-5))), (log_of (aacts (-4))).
  split; [apply log_run; vm_compute; reflexivity|].
  split. { assert (E : log_of (aacts (-4)) = log_of (aacts (-5))) by (vm_compute; reflexivity). rewrite E. apply log_run; vm_compute; reflexivity. }
  split; vm_compute; reflexivity.
Qed.
Print Assumptions C171_events_miss_allowances_refuted.

(** C172: the events do not show a vesting schedule: creating it leaves the log of a plain transfer *)
Theorem C172_events_miss_schedules_refuted : exists l1 l2 w1 w2 L,
  lrun xH w_empty l1 w1 L /\ lrun xH w_empty l2 w2 L /\
  entry_at w1 30 (-5) 0 (mkVInfo 1000 (-5) vlin) /\ no_entry w2 30 (-5) 0.
Proof.
  exists (map event_of (v0 ++ [Do [-1] (CVestCreate 30 [(-5, vlin)])])), (map event_of (v0 ++ [Do [-1] (CTransfer 1 (-1) 30 1000)])),
    (lw_of (v0 ++ [Do [-1] (CVestCreate 30 [(-5, vlin)])])), (lw_of (v0 ++ [Do [-1] (CTransfer 1 (-1) 30 1000)])),
    (log_of (v0 ++ [Do [-1] (CVestCreate 30 [(-5, vlin)])])).
  split; [apply log_run; vm_compute; reflexivity|].
  split. { assert (E : log_of (v0 ++ [Do [-1] (CVestCreate 30 [(-5, vlin)])]) = log_of (v0 ++ [Do [-1] (CTransfer 1 (-1) 30 1000)])) by (vm_compute; reflexivity).
           rewrite E. apply log_run; vm_compute; reflexivity. }
  split; [eexists _, _; split; [vm_compute; reflexivity|]; split; vm_compute; reflexivity|].
  intros x [v [m [E1 [E2 E3]]]].
  assert (E : fget 30 (w_vest (lw_of (v0 ++ [Do [-1] (CTransfer 1 (-1) 30 1000)]))) = Some (mkVest (-1) 1 10 (Some (-6, 500)) fempty)) by (vm_compute; reflexivity).
  unfold vest_at in E1. rewrite E in E1. inversion E1; subst v. discriminate.
Qed.
Print Assumptions C172_events_miss_schedules_refuted.

(** C173: the events of a pool creation do not tell which kind of pool was created *)
Definition kacts (ty : PoolType) : list Act := fsetup [-5] ++ [Do [-5] (CCreate 20 (-5) (finit 1 2) ty (Some 10) 100 1000)].
Theorem C173_events_miss_pool_type_refuted : exists l1 l2 w1 w2 L,
  lrun xH w_empty l1 w1 L /\ lrun xH w_empty l2 w2 L /\
  fget fp1 (w_code w1) = Some KPool /\ fget fp1 (w_code w2) = Some KStable.
Proof.
  exists (map event_of (kacts Xyk)), (map event_of (kacts StableT)), (lw_of (kacts Xyk)), (lw_of (kacts StableT)), (log_of (kacts Xyk)).
  split; [apply log_run; vm_compute; reflexivity|].
  split. { assert (E : log_of (kacts Xyk) = log_of (kacts StableT)) by (vm_compute; reflexivity). rewrite E. apply log_run; vm_compute; reflexivity. }
  split; vm_compute; reflexivity.
Qed.
Print Assumptions C173_events_miss_pool_type_refuted.
