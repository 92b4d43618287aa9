(** Concrete cases for C177-C183 and the refuted claims C180, C181. *)
From Coq Require Import ZArith List Bool Lia.
From Coq Require Import ZifyBool.
From Verif Require Import Base FMap Decimal DecimalProofs Curve World Token TokenProofs Frame Stake Pool PoolProofs
  Stable StableProofs Rewards Vest Factory Router System SysFrame SysInv SysPool SysStable SysSupply
  SysVest SysStake SysRewards SysFact Script Props_Token Props_Pool Props_PoolCases Props_FactoryCases Props_RouterCases
  Props_RewardsCases Props_VestCases Asks AsksErase AsksExact Props_Asks.
Import ListNotations.
Open Scope list_scope.
Open Scope Z_scope.

(** the demands of a call, [None] if it fails *)
Definition asks_of (sg : list Addr) (k : Call) (w : World) : option (list Ask) :=
  match aexec (env_of sg) k (w, []) with Ok (_, (_, D)) => Some D | Err _ => None end.
Lemma asks_run sg k w D : asks_of sg k w = Some D -> exists w', aexec (env_of sg) k (w, []) = Ok (tt, (w', D)).
Proof. unfold asks_of. destruct (aexec _ _ _) as [[[] [w1 D1]]|]; [|discriminate]. intros X. inversion X; subst. eauto. Qed.

Definition kdep : Call := CPoolProvide 10 (-4) (Some 1000) None (Some 2005) None (Some 500) None.
Definition kswap : Call := CPoolSwap 10 (-2) 1 2000 None None None None.
Definition kroute : Call := CHopSwap rhop (-4) rops None 10000 None None.

(** a deposit and a route; without the user's signature both fail, extra signers change nothing *)
Example C177_C178_example :
  asks_of [-4] kdep xW = Some [mkAsk (-4) None kdep; pay 10 (-4) 1 1000; pay 10 (-4) 2 2000] /\
  asks_of [-9; -4; -2] kdep xW = asks_of [-4] kdep xW /\ asks_of [-9; -2] kdep xW = None.
Proof. vm_compute. repeat split. Qed.
Example C178_C182_C183_route : asks_of [-4] kroute rW =
  Some [mkAsk (-4) None kroute;
        mkAsk (-4) (Some rhop) (CPoolSwap fp1 (-4) 1 10000 (Some 19000) None None None); pay fp1 (-4) 1 10000;
        mkAsk (-4) (Some rhop) (CStableSwap fp2 (-4) 2 19743 (Some 19600) None None None); pay fp2 (-4) 2 19743].
Proof. vm_compute. reflexivity. Qed.

(** a swap's signature survives another trade, which changes what the swap pays *)
Definition ktrade : Call := CPoolSwap 10 (-4) 2 500 None None None None.
Definition xW2 : World := after (exec (env_of [-2]) kswap xW).
Lemma xW2_run : run xH xW [Tx (env_of [-2]) kswap] xW2.
Proof. econstructor; [|constructor]. apply st_tx; [reflexivity|]. vm_compute. reflexivity. Qed.
Example C179_example : lasting ktrade = true /\ asks_of [-4] ktrade xW = Some [mkAsk (-4) None ktrade; pay 10 (-4) 2 500] /\
  asks_of [-4] ktrade xW2 = asks_of [-4] ktrade xW /\ lasting (CHopSwap rhop (-4) [mkOp 2 1 None] None 10000 None None) = true.
Proof. vm_compute. repeat split. Qed.

(** ** C180 fails: after a small trade of somebody else, the same deposit, within its slippage
    tolerance, demands another transfer than the one signed for. *)
Example kdep1 : asks_of [-4] kdep xW = Some [mkAsk (-4) None kdep; pay 10 (-4) 1 1000; pay 10 (-4) 2 2000].
Proof. vm_compute. reflexivity. Qed.
Example kdep2 : asks_of [-4] kdep xW2 = Some [mkAsk (-4) None kdep; pay 10 (-4) 1 1000; pay 10 (-4) 2 1992].
Proof. vm_compute. reflexivity. Qed.
Theorem C180_deposit_signature_lasts_refuted : exists w w2 e k w' w2' D D2,
  reachable xH w /\ run xH w [Tx (env_of [-2]) kswap] w2 /\
  aexec e k (w, []) = Ok (tt, (w', D)) /\ aexec e k (w2, []) = Ok (tt, (w2', D2)) /\
  In (pay 10 (-4) 2 2000) D /\ In (pay 10 (-4) 2 1992) D2 /\ ~ In (pay 10 (-4) 2 1992) D.
Proof.
  destruct (asks_run _ _ _ _ kdep1) as [w' X]. destruct (asks_run _ _ _ _ kdep2) as [w2' X2].
  exists xW, xW2, (env_of [-4]), kdep, w', w2', [mkAsk (-4) None kdep; pay 10 (-4) 1 1000; pay 10 (-4) 2 2000],
    [mkAsk (-4) None kdep; pay 10 (-4) 1 1000; pay 10 (-4) 2 1992].
  split; [exact xW_reach|]. split; [exact xW2_run|]. split; [exact X|]. split; [exact X2|].
  simpl. split; [auto|]. split; [auto|]. unfold pay, kdep. intros [Q|[Q|[Q|[]]]]; discriminate.
Qed.
Print Assumptions C180_deposit_signature_lasts_refuted.
Example C180_iff_example : pool_at xW 10 xP /\ exists q, pool_at xW2 10 q /\ p_total q <> 0 /\
  Z.min 2005 (1000 * p_rb q / p_ra q) = 1992 /\ Z.min 2005 (1000 * p_rb xP / p_ra xP) = 2000.
Proof. split; [exact xW_pool|]. eexists. split; [vm_compute; reflexivity|]. split; [vm_compute; discriminate|]. vm_compute. auto. Qed.

(** ** C181 fails: the second leg of a route is signed with the amount the first leg returned, so
    after a trade in the first pool the signature is of no use, although the route still meets its minimum. *)
Definition rswap : Call := CPoolSwap fp1 (-2) 1 100 None None None None.
Definition rW2 : World := after (exec (env_of [-2]) rswap rW).
Lemma rW2_run : run xH rW [Tx (env_of [-2]) rswap] rW2.
Proof. econstructor; [|constructor]. apply st_tx; [reflexivity|]. vm_compute. reflexivity. Qed.
Definition droute (y : Z) : list Ask :=
  [mkAsk (-4) None kroute;
   mkAsk (-4) (Some rhop) (CPoolSwap fp1 (-4) 1 10000 (Some 19000) None None None); pay fp1 (-4) 1 10000;
   mkAsk (-4) (Some rhop) (CStableSwap fp2 (-4) 2 y (Some 19600) None None None); pay fp2 (-4) 2 y].
Example kroute1 : asks_of [-4] kroute rW = Some (droute 19743). Proof. vm_compute. reflexivity. Qed.
Example kroute2 : asks_of [-4] kroute rW2 = Some (droute 19740). Proof. vm_compute. reflexivity. Qed.
Theorem C181_route_signature_lasts_refuted : exists w w2 e k w' w2' D D2,
  reachable xH w /\ run xH w [Tx (env_of [-2]) rswap] w2 /\
  aexec e k (w, []) = Ok (tt, (w', D)) /\ aexec e k (w2, []) = Ok (tt, (w2', D2)) /\
  In (pay fp2 (-4) 2 19743) D /\ In (pay fp2 (-4) 2 19740) D2 /\ ~ In (pay fp2 (-4) 2 19740) D.
Proof.
  destruct (asks_run _ _ _ _ kroute1) as [w' X]. destruct (asks_run _ _ _ _ kroute2) as [w2' X2].
  exists rW, rW2, (env_of [-4]), kroute, w', w2', (droute 19743), (droute 19740).
  split; [exact rW_reach|]. split; [exact rW2_run|]. split; [exact X|]. split; [exact X2|].
  unfold droute, pay. simpl In. split; [auto 6|]. split; [auto 6|]. unfold kroute.
  intros [Q|[Q|[Q|[Q|[Q|[]]]]]]; try discriminate Q.
Qed.
Print Assumptions C181_route_signature_lasts_refuted.

(** the rewards and vesting contracts: funding demands two people, unbonding the user and the
    staking address once or (with a pending reward) twice; creating schedules one transfer of the
    sum; a contract that is the token's administrator needs nobody else for minting *)
Definition kfund : Call := CRewFund 30 1060 200 700.
Definition kcreate : Call := CVestCreate 30 vlist.
Example C178_C183_rewards_example :
  asks_of [-1; -7] kfund (world_of (r1 ++ [Wait 1040 1])) = Some [mkAsk (-1) None kfund; mkAsk (-7) None kfund; pay 30 (-1) 2 700] /\
  asks_of [-1] kfund (world_of (r1 ++ [Wait 1040 1])) = None /\
  asks_of [-2; -7] (CRewUnbond 30 (-2) bA 100) (world_of r1) =
    Some [mkAsk (-2) None (CRewUnbond 30 (-2) bA 100); mkAsk (-7) None (CRewUnbond 30 (-2) bA 100)] /\
  asks_of [-2; -7] (CRewUnbond 30 (-2) bA 100) (world_of r3) =
    Some [mkAsk (-2) None (CRewUnbond 30 (-2) bA 100); mkAsk (-7) None (CRewUnbond 30 (-2) bA 100); mkAsk (-7) None (CRewUnbond 30 (-2) bA 100)].
Proof. vm_compute. repeat split. Qed.
Example C178_C182_vesting_example :
  asks_of [-1] kcreate (world_of v0) = Some [mkAsk (-1) None kcreate; pay 30 (-1) 1 1600] /\
  asks_of [-6] (CVestMint 30 (-6) 300) (world_of v1) = Some [mkAsk (-6) None (CVestMint 30 (-6) 300)] /\
  asks_of [-1] (CVestBurn 30 (-1) 5) (world_of v1) = Some [mkAsk (-1) None (CVestBurn 30 (-1) 5); mkAsk (-1) (Some 30) (CBurn 1 (-1) 5)].
Proof. vm_compute. repeat split. Qed.
(** nobody signs: anybody may have a staker's rewards paid out, or rewrite a stable pool's settings *)
Example C183_free_example : free (CStableConfig fp2 (-1) None (Some 5000) None None None) = true /\
  asks_of [] (CStableConfig fp2 (-1) None (Some 5000) None None None) rW = Some [] /\
  free kdep = false.
Proof. vm_compute. repeat split. Qed.
