(** Properties of the factory: concrete cases for the theorems of Props_Factory and the refuted
    claims (C94, C95, C97). *)
From Coq Require Import ZArith List Bool Lia.
From Coq Require Import ZifyBool.
From Verif Require Import Base FMap Decimal DecimalProofs Curve World Token TokenProofs Frame Stake Pool PoolProofs
  Stable StableProofs Rewards Vest Factory Router System SysFrame SysInv SysPool SysStable SysSupply SysVest SysStake Script Runs
  Props_Token Props_Pool Props_Stable Props_Vest Props_Stake SysFact Props_Factory Props_PoolCases.
Import ListNotations.
Open Scope Z_scope.

(** three tokens, two funded accounts and a factory at 20 with admin -1 and whitelist [wl] *)
Definition finit (a b : Addr) : PoolInit := mkPoolInit (-1) 30 (-3) 500 100 1000 500 a b 10 5 (-1) 10.
Definition fsetup (wl : list Addr) : list Act :=
  [ Do [] (CDeployTok 1 (-1) 7); Do [] (CDeployTok 2 (-1) 7); Do [] (CDeployTok 3 (-1) 7);
    Do [-1] (CMint 1 (-2) (10^22)); Do [-1] (CMint 2 (-2) (10^22)); Do [-1] (CMint 3 (-2) (10^22));
    Do [-1] (CMint 1 (-4) (10^15)); Do [-1] (CMint 2 (-4) (10^15)); Do [-1] (CMint 3 (-4) (10^15));
    Do [] (CDeploy 20 KFact); Do [] (CFactInit 20 (-1) 100 101 102 103 wl 7) ].
Definition fpools : list Act :=
  [ Do [-5] (CCreate 20 (-5) (finit 1 2) Xyk None 100 1000); Do [-5] (CCreate 20 (-5) (finit 2 3) StableT (Some 10) 100 1000) ].
Definition fp1 : Addr := xH 20 (SPair 1 2).
Definition fp2 : Addr := xH 20 (SPair 2 3).
Definition ffund (a b : Z) : list Act := [Do [-2] (CPoolProvide fp1 (-2) (Some a) None (Some b) None None None)].
Definition fstake : Addr := xH fp1 SEmpty.
Definition fshare : Addr := xH fp1 (SPair 1 2).
Definition fW : World := world_of (fsetup [-5] ++ fpools ++ ffund 1000000 2000000 ++ [Do [-2] (CBond fstake (-2) 4000)]).
Example fW_reach : reachable xH fW. Proof. apply world_reach; vm_compute; reflexivity. Qed.
Definition ff (w : World) : option (list Addr * list Addr) := match fget 20 (w_fact w) with Some f => Some (f_lps f, f_white f) | None => None end.

Example C62_C63_C64_example : ff fW = Some ([fp1; fp2], [-5]) /\
  pool_tokens fW fp1 = Some (1, 2) /\ pool_tokens fW fp2 = Some (2, 3) /\
  fact_pool_by_pair 20 2 1 fW = Ok (fp1, fW) /\ fact_pool_by_pair 20 2 3 fW = Ok (fp2, fW) /\ fact_pool_by_pair 20 1 3 fW = Err (EContract 4) /\
  (exists r, fact_create (env_of [-5]) None 20 (-5) (finit 1 3) StableT (Some 7) 100 1000 fW = Ok r) /\
  fact_create (env_of [-5]) None 20 (-5) (finit 1 2) StableT (Some 7) 100 1000 fW = Err EHost /\
  fact_create (env_of [-5]) None 20 (-5) (finit 2 1) Xyk None 100 1000 fW = Err (EContract 5) /\
  fact_create (env_of [-4]) None 20 (-4) (finit 1 3) Xyk None 100 1000 fW = Err (EContract 3).
Proof.
  split; [vm_compute; reflexivity|]. split; [vm_compute; reflexivity|]. split; [vm_compute; reflexivity|].
  split; [vm_compute; reflexivity|]. split; [vm_compute; reflexivity|]. split; [vm_compute; reflexivity|].
  split; [eexists; vm_compute; reflexivity|].
  split; [vm_compute; reflexivity|]. split; vm_compute; reflexivity.
Qed.
Example C65_example : exists w', fact_update_whitelist (env_of [-1]) None 20 (-1) [-6; -7; -6] [-5; -7] fW = Ok (tt, w') /\
  ff w' = Some ([fp1; fp2], [-6]).
Proof. eexists. split; vm_compute; reflexivity. Qed.

(** The user holds 1409213 shares in the wallet and 4000 staked, of 1414213 in all. *)
Definition frow : PoolInfo := mkPoolInfo 1 1000000 2 2000000 fshare 1414213 fstake 30.
Example C96_C97_C98_example : pool_row fW fp1 = Some frow /\ held fW frow (-2) = 1413213 /\
  fact_portfolio 20 (-2) true fW = Ok (([((1, 999292), (2, 1998585))], [(fstake, [mkStakeE 4000 0])]), fW).
Proof. split; [vm_compute; reflexivity|]. split; vm_compute; reflexivity. Qed.

(** ** C94 fails: initialize accepts a whitelist with duplicates, and a removal takes out one of them *)
Theorem C94_removed_stay_out_refuted : exists w w1 w2 f p,
  reachable xH w /\ fact_update_whitelist (env_of [-1]) None 20 (-1) [] [-5] w = Ok (tt, w1) /\
  fact_at w1 20 f /\ In (-5) (f_white f) /\
  fact_create (env_of [-5]) None 20 (-5) (finit 1 2) Xyk None 100 1000 w1 = Ok (p, w2).
Proof.
  exists (world_of (fsetup [-5; -6; -5])). eexists _, _, _, _.
  split; [apply world_reach; vm_compute; reflexivity|].
  split; [vm_compute; reflexivity|]. split; [vm_compute; reflexivity|]. split; [simpl; auto|]. vm_compute. reflexivity.
Qed.
Print Assumptions C94_removed_stay_out_refuted.

(** ** C95 fails: initialize insists on a whitelisted account, the update does not *)
Theorem C95_whitelist_nonempty_refuted : exists w w1 f,
  reachable xH w /\ fact_update_whitelist (env_of [-1]) None 20 (-1) [] [-5] w = Ok (tt, w1) /\
  fact_at w1 20 f /\ f_white f = [].
Proof.
  exists fW. eexists _, _. split; [exact fW_reach|]. split; [vm_compute; reflexivity|]. split; vm_compute; reflexivity.
Qed.
Print Assumptions C95_whitelist_nonempty_refuted.
(** and then nobody can create a pool *)
Theorem C95_nobody_creates e c self u i ty amp ds mf w f r : fact_at w self f -> f_white f = [] ->
  fact_create e c self u i ty amp ds mf w <> Ok r.
Proof.
  intros E N X. destruct r as [p w']. unfold fact_create in X.
  apply mbind_ok in X. destruct X as [z1 [w1 [Q X]]]. apply enter_ok in Q. destruct Q as [_ ->].
  apply mbind_ok in X. destruct X as [z2 [w1 [Q X]]]. apply require_auth_ok in Q. destruct Q as [_ ->].
  apply mbind_ok in X. destruct X as [z3 [w1 [Q X]]]. apply mguard_ok in Q. destruct Q as [_ Q]; inversion Q; subst z3 w1; clear Q.
  apply mbind_ok in X. destruct X as [g [w1 [Q X]]]. apply get_fact_ok in Q. destruct Q as [Q ->].
  unfold fact_at in E. rewrite E in Q. inversion Q; subst g. rewrite N in X. discriminate X.
Qed.
Print Assumptions C95_nobody_creates.

(** ** C97 fails: the query multiplies the shares by 10^18.  Two deposits of ordinary size of tokens
    with 18 decimals (200 tokens) are enough. *)
Theorem C97_portfolio_refuted : exists w, reachable xH w /\ fact_portfolio 20 (-2) false w = Err EArith /\
  (exists r, fact_portfolio 20 (-4) false w = Ok r) /\
  exists a b w', pool_withdraw (env_of [-2]) None fp1 (-2) (10^20) 1 1 None w = Ok ((a, b), w') /\ a = 10^20 - 1 /\ b = 10^20 - 1.
Proof.
  exists (world_of (fsetup [-5] ++ fpools ++ ffund 2000 2000 ++ ffund (2 * 10^20) (2 * 10^20))).
  split; [apply world_reach; vm_compute; reflexivity|]. split; [vm_compute; reflexivity|].
  split; [eexists; vm_compute; reflexivity|]. eexists _, _, _. vm_compute. repeat split; reflexivity.
Qed.
Print Assumptions C97_portfolio_refuted.
