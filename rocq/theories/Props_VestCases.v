(** Concrete cases of the vesting theorems and the properties that fail: C49-C54, C85-C87. *)
From Coq Require Import ZArith List Bool Lia.
From Coq Require Import ZifyBool.
From Verif Require Import Base FMap Decimal Curve World Token TokenProofs Stake Pool Stable Rewards Vest Factory Router System
  SysVest Script Props_Token Props_Pool Props_Vest.
Import ListNotations.
Open Scope Z_scope.

(** token 1; admin -1; vesting contract 30 with minter -6 (capacity 500) *)
Definition vsetup (amt : Z) : list Act :=
  [Do [-1] (CDeployTok 1 (-1) 7); Do [-1] (CMint 1 (-1) amt); Do [-1] (CDeploy 30 KVest);
   Do [-1] (CVestInit 30 (-1) 1 10 (Some (-6, 500))); Do [-1] (CSetAdmin 1 30); Wait 90 1].
Definition vlin : curve := SatLin 100 1000 200 0.
Definition vpl : curve := PieceLin [(100, 600); (150, 600); (300, 0)].
Definition vlist : list (Addr * curve) := [(-5, vlin); (-7, vpl)].
Definition v0 : list Act := vsetup 5000.
Definition v1 : list Act := v0 ++ [Do [-1] (CVestCreate 30 vlist)].
Definition v2 : list Act := v1 ++ [Do [-1] (CVestCreate 30 [(-5, vpl)]); Wait 125 2; Do [-5] (CVestClaim 30 (-5) 0)].
Definition vV (a b d : Z) : Vest := mkVest (-1) 1 10 (Some (-6, 500))
  (fset (-5) (fset 0 (mkVInfo a (-5) vlin) (fset 1 (mkVInfo b (-5) vpl) fempty)) (fset (-7) (fset 0 (mkVInfo d (-7) vpl) fempty) fempty)).

Example v2_reach : reachable xH (world_of v2). Proof. apply world_reach. vm_compute. reflexivity. Qed.
Example C49_example : vest_at (world_of v2) 30 (vV 750 600 600) /\ bal (world_of v2) 1 30 = 1950 /\
  sum_of (unclaimed (vV 750 600 600)) [(-5, 0); (-5, 1); (-7, 0)] = 1950.
Proof. vm_compute. repeat split. Qed.

(** C50: claims of -5 on entry 0 at times 125 and 160 *)
Definition v3 : list Act := [Wait 125 2; Do [-5] (CVestClaim 30 (-5) 0); Do [-1] (CVestCreate 30 [(-5, vpl)]); Wait 160 3; Do [-5] (CVestClaim 30 (-5) 0)].
Example C50_example : exists w1 w2, reachable xH (world_of v0) /\
  exec (env_of [-1]) (CVestCreate 30 vlist) (world_of v0) = Ok (tt, w1) /\ no_entry (world_of v0) 30 (-5) 0 /\
  entry_at w1 30 (-5) 0 (mkVInfo 1000 (-5) vlin) /\ claimed xH 30 (-5) 0 1 w1 (map event_of v3) w2 600 /\
  cvalue vlin (w_now w2) = Ok 400.
Proof.
  exists (world_of v1), (world_of (v1 ++ v3)).
  split; [apply world_reach; vm_compute; reflexivity|]. split; [vm_compute; reflexivity|].
  split. { intros x [v [m [E1 [E2 E3]]]].
    assert (E : fget 30 (w_vest (world_of v0)) = Some (mkVest (-1) 1 10 (Some (-6, 500)) fempty)) by (vm_compute; reflexivity).
    unfold vest_at in E1. rewrite E in E1. inversion E1; subst v. discriminate. }
  split. { eexists _, _. split; [vm_compute; reflexivity|]. split; vm_compute; reflexivity. }
  split; [|vm_compute; reflexivity].
  set (a1 := world_of (v1 ++ [Wait 125 2])).
  set (a2 := world_of (v1 ++ [Wait 125 2; Do [-5] (CVestClaim 30 (-5) 0)])).
  set (a3 := world_of (v1 ++ [Wait 125 2; Do [-5] (CVestClaim 30 (-5) 0); Do [-1] (CVestCreate 30 [(-5, vpl)])])).
  set (a4 := world_of (v1 ++ [Wait 125 2; Do [-5] (CVestClaim 30 (-5) 0); Do [-1] (CVestCreate 30 [(-5, vpl)]); Wait 160 3])).
  assert (B1 : bal a2 1 (-5) - bal a1 1 (-5) = 250) by (vm_compute; reflexivity).
  assert (B2 : bal (world_of (v1 ++ v3)) 1 (-5) - bal a4 1 (-5) = 350) by (vm_compute; reflexivity).
  assert (S1 : step xH (world_of v1) (Tick 125 2) a1) by (vm_compute; eapply st_tick; vm_compute; split; discriminate).
  assert (S2 : step xH a1 (Tx (env_of [-5]) (CVestClaim 30 (-5) 0)) a2) by (apply st_tx; vm_compute; reflexivity).
  assert (S3 : step xH a2 (Tx (env_of [-1]) (CVestCreate 30 [(-5, vpl)])) a3) by (apply st_tx; vm_compute; reflexivity).
  assert (S4 : step xH a3 (Tick 160 3) a4) by (vm_compute; eapply st_tick; vm_compute; split; discriminate).
  assert (S5 : step xH a4 (Tx (env_of [-5]) (CVestClaim 30 (-5) 0)) (world_of (v1 ++ v3))) by (apply st_tx; vm_compute; reflexivity).
  revert S1 S2 S3 S4 S5 B1 B2. simpl map. generalize a1 a2 a3 a4 (world_of (v1 ++ v3)) (world_of v1). clear.
  intros a1 a2 a3 a4 a5 a0 S1 S2 S3 S4 S5 B1 B2.
  replace 600 with (bal a2 1 (-5) - bal a1 1 (-5) + (bal a5 1 (-5) - bal a4 1 (-5) + 0)) by lia.
  eapply cl_other; [exact S1|intros; discriminate|]. eapply cl_claim; [exact S2|].
  eapply cl_other; [exact S3|intros e Q; inversion Q|]. eapply cl_other; [exact S4|intros; discriminate|].
  eapply cl_claim; [exact S5|constructor].
Qed.

Definition v4 : list Act := v2 ++ [Wait 300 4].
Example C51_example : reachable xH (world_of v4) /\ vest_at (world_of v4) 30 (vV 750 600 600) /\
  entry_at (world_of v4) 30 (-5) 1 (mkVInfo 600 (-5) vpl) /\ ended vpl (w_now (world_of v4)) /\ ended vlin (w_now (world_of v4)).
Proof.
  split; [apply world_reach; vm_compute; reflexivity|]. split; [vm_compute; reflexivity|].
  split; [eexists _, _; split; [vm_compute; reflexivity|]; split; vm_compute; reflexivity|].
  split; vm_compute; [discriminate|reflexivity].
Qed.

(** C52, C53: the creation above is an instance; so is the claim *)
Example C52_C53_example : exists w', exec (env_of [-1]) (CVestCreate 30 [(-5, vlin)]) (world_of v2) = Ok (tt, w') /\
  entry_at w' 30 (-5) 2 (mkVInfo 1000 (-5) vlin) /\ bal w' 1 (-1) = bal (world_of v2) 1 (-1) - 1000 /\
  exists w'', exec (env_of [-5]) (CVestClaim 30 (-7) 0) (set_time (world_of v2) 200 3) = Err EAuth /\
  exec (env_of [-5]) (CVestClaim 30 (-5) 0) (set_time (world_of v2) 126 3) = Ok (tt, w'').
Proof.
  eexists. split; [vm_compute; reflexivity|].
  split; [eexists _, _; split; [vm_compute; reflexivity|]; split; vm_compute; reflexivity|].
  split; [vm_compute; reflexivity|]. eexists. split; vm_compute; reflexivity.
Qed.

(** C54: 300 minted, capacity raised from 200 to 250, 250 minted *)
Definition v5 : list Act := [Do [-6] (CVestMint 30 (-6) 300); Do [-1] (CVestCapacity 30 (-1) 250); Do [-6] (CVestMint 30 (-6) 250)].
Example C54_example : minted_log xH 30 (world_of v1) (map event_of v5) (world_of (v1 ++ v5)) 550 50.
Proof.
  set (a1 := world_of (v1 ++ [Do [-6] (CVestMint 30 (-6) 300)])).
  set (a2 := world_of (v1 ++ [Do [-6] (CVestMint 30 (-6) 300); Do [-1] (CVestCapacity 30 (-1) 250)])).
  assert (B1 : bal a1 1 30 - bal (world_of v1) 1 30 = 300) by (vm_compute; reflexivity).
  assert (B2 : bal (world_of (v1 ++ v5)) 1 30 - bal a2 1 30 = 250) by (vm_compute; reflexivity).
  set (m1 := mkVest (-1) 1 10 (Some (-6, 500)) (fset (-5) (fset 0 (mkVInfo 1000 (-5) vlin) fempty) (fset (-7) (fset 0 (mkVInfo 600 (-7) vpl) fempty) fempty))).
  assert (S1 : step xH (world_of v1) (Tx (env_of [-6]) (CVestMint 30 (-6) 300)) a1) by (apply st_tx; vm_compute; reflexivity).
  assert (S2 : step xH a1 (Tx (env_of [-1]) (CVestCapacity 30 (-1) 250)) a2) by (apply st_tx; vm_compute; reflexivity).
  assert (S3 : step xH a2 (Tx (env_of [-6]) (CVestMint 30 (-6) 250)) (world_of (v1 ++ v5))) by (apply st_tx; vm_compute; reflexivity).
  assert (V1 : vest_at (world_of v1) 30 m1) by (vm_compute; reflexivity).
  assert (V2 : vest_at a1 30 (set_v_minter m1 (Some (-6, 200)))) by (vm_compute; reflexivity).
  assert (V3 : vest_at a2 30 (set_v_minter m1 (Some (-6, 250)))) by (vm_compute; reflexivity).
  revert S1 S2 S3 B1 B2 V1 V2 V3. simpl map. generalize a1 a2 (world_of (v1 ++ v5)) (world_of v1). clear.
  intros a1 a2 a3 a0 S1 S2 S3 B1 B2 V1 V2 V3.
  replace 550 with (bal a1 1 30 - bal a0 1 30 + (bal a3 1 30 - bal a2 1 30 + 0)) by lia.
  eapply (ml_mint xH 30 a0 _ _ _ m1); [exact S1|exact V1|].
  change 50 with (Z.max 0 (250 - capacity (set_v_minter m1 (Some (-6, 200)))) + 0).
  eapply ml_capacity; [exact S2|exact V2|]. eapply (ml_mint xH 30 a2 _ _ _ (set_v_minter m1 (Some (-6, 250)))); [exact S3|exact V3|].
  constructor.
Qed.

(** C85: an accepted schedule whose claims fail until it has ended, because the interpolation
    multiplies the locked amount by the elapsed time in 128 bits *)
Definition vbig : curve := SatLin 100 (10^31) (100 + 10^8) 0.
Definition v6 : list Act := vsetup (10^31) ++ [Do [-1] (CVestCreate 30 [(-5, vbig)]); Wait (100 + 9 * 10^7) 2].
Lemma claim_needs_value e c u i w w' x : exec e (CVestClaim c u i) w = Ok (tt, w') -> entry_at w c u i x ->
  exists lk, cvalue (vi_sched x) (w_now w) = Ok lk.
Proof.
  intros X E. simpl in X. apply vest_claim_ok in X. destruct X as [v [y [lk V]]]. destruct V.
  apply (entry_iff _ _ _ _ _ _ vk_before) in E. rewrite E in vk_entry. inversion vk_entry; subst y. eauto.
Qed.
Theorem C85_claims_possible_during_schedule_refuted : exists w, reachable xH w /\
  entry_at w 30 (-5) 0 (mkVInfo (10^31) (-5) vbig) /\ 100 < w_now w < 100 + 10^8 /\
  forall e w', exec e (CVestClaim 30 (-5) 0) w <> Ok (tt, w').
Proof.
  assert (E : entry_at (world_of v6) 30 (-5) 0 (mkVInfo (10^31) (-5) vbig)).
  { eexists _, _; split; [vm_compute; reflexivity|]; split; vm_compute; reflexivity. }
  assert (L2 : cvalue vbig (w_now (world_of v6)) = Err EArith) by (vm_compute; reflexivity).
  exists (world_of v6). split; [apply world_reach; vm_compute; reflexivity|]. split; [exact E|].
  split; [vm_compute; split; reflexivity|].
  intros e w' X. destruct (claim_needs_value _ _ _ _ _ _ _ X E) as [lk L]. cbn [vi_sched] in L. congruence.
Qed.
Print Assumptions C85_claims_possible_during_schedule_refuted.

(** C86: 500 tokens minted by the minter; the admin must still pay new schedules from their own account *)
Definition v7 : list Act := vsetup 0 ++ [Do [-6] (CVestMint 30 (-6) 500)].
Example C86_example : reachable xH (world_of v7) /\ vest_at (world_of v7) 30 (mkVest (-1) 1 10 (Some (-6, 0)) fempty) /\
  bal (world_of v7) 1 30 = 500 /\ exec (env_of [-1]) (CVestCreate 30 [(-5, SatLin 100 500 200 0)]) (world_of v7) = Err (EContract 25).
Proof. split; [apply world_reach; vm_compute; reflexivity|]. vm_compute. repeat split. Qed.

Example C87_example : exists w', vest_available 30 (-7) 0 (set_time (world_of v2) 200 3) = Ok (200, set_time (world_of v2) 200 3) /\
  exec (env_of [-7]) (CVestClaim 30 (-7) 0) (set_time (world_of v2) 200 3) = Ok (tt, w').
Proof. eexists. split; vm_compute; reflexivity. Qed.
