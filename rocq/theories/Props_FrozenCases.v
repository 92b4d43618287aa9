(** C222, C224: what a refused holder stops though neither trader nor pool (user nor staking contract) is refused the
    token in question; and concrete cases of C221, C223, C225. *)
From Coq Require Import ZArith List Bool String Lia.
From Coq Require Import ZifyBool.
From Verif Require Import Base FMap Decimal Curve World Token TokenProofs Stake Pool Stable Rewards Vest Factory Router System
  Script Props_Token Props_Pool Props_Stable Props_Stake Props_PoolCases Props_StakeCases Events EventsErase EventsLog Frozen Props_Frozen.
Import ListNotations.
Open Scope Z_scope.

(** [t] refuses [x] and there is no other refusal *)
Definition only (t x : Addr) : Refusals := fun t' x' => (t' =? t) && (x' =? x).
Definition passb (B : Refusals) (sg : list Addr) (k : Call) (w : World) : bool :=
  match lexec (env_of sg) k (w, []) with Ok (_, (_, L)) => forallb (moves_ok B) L | Err _ => false end.
Lemma passb_ok B sg k w : passb B sg k w = true -> exists w', passes B (env_of sg) k w w'.
Proof.
  unfold passb, passes. destruct (lexec (env_of sg) k (w, [])) as [[[] [w' L]]|x]; [|discriminate]. intros X. exists w', L. auto.
Qed.
Ltac done1 := first [solve [vm_compute; reflexivity] | solve [vm_compute; discriminate] | solve [eexists; vm_compute; reflexivity]].
Ltac conj := lazymatch goal with |- _ /\ _ => split; [done1|conj] | _ => done1 end.

(** ** C222: "a swap concerns the trader and the pool": refuted.  In a pool without any fee the commission of zero is
    still sent: when the fee recipient is refused by token 2, nobody can buy token 2, by any swap. *)
Definition f0 : list Act := xsetup 0 1000 ++ xfund 1000000 2000000.
Definition fP : Pool := mkPool 1 2 xshare (xH 10 SEmpty) 0 (-3) 500 1000 500 100 (-1) 1414213 1000000 2000000.
Example f0_reach : reachable xH (world_of f0). Proof. apply world_reach. vm_compute. reflexivity. Qed.
Theorem C222_fee_recipient_stops_trading_refuted : exists w p,
  reachable xH w /\ pool_at w 10 p /\ p_fee p = 0 /\
  (forall u, u <> p_feerec p -> free (only 2 (p_feerec p)) 1 [u; 10] /\ free (only 2 (p_feerec p)) 2 [u; 10]) /\
  (exists w', exec (env_of [-4]) (CPoolSwap 10 (-4) 1 1000 None None None None) w = Ok (tt, w')) /\
  (forall e u amt mi ms dl mf w', ~ passes (only 2 (p_feerec p)) e (CPoolSwap 10 u 1 amt mi ms dl mf) w w').
Proof.
  exists (world_of f0), fP. split; [apply f0_reach|]. split; [vm_compute; reflexivity|]. split; [reflexivity|].
  split; [|split].
  - intros u Nu. change (p_feerec fP) with (-3) in *. unfold free, only. split; intros x [<-|[<-|[]]]; try reflexivity.
    destruct (Z.eqb_spec u (-3)); [congruence|reflexivity].
  - eexists. vm_compute. reflexivity.
  - intros e u amt mi ms dl mf w' X.
    assert (Hp : pool_at (world_of f0) 10 fP) by (vm_compute; reflexivity).
    assert (Sd : side fP 1 1000000 2000000 2) by (left; repeat split).
    apply (C221_swap_needs xH (world_of f0) _ e 10 fP u 1 amt mi ms dl mf _ _ _ w' f0_reach Hp Sd) in X.
    destruct X as [_ [_ F]]. apply free3 in F. destruct F as [_ [_ F]]. vm_compute in F. discriminate F.
Qed.
Print Assumptions C222_fee_recipient_stops_trading_refuted.

(** ... the other direction is open, and so it is after the admin has named another recipient *)
Example C221_example :
  (exists w', passes (only 2 (-3)) (env_of [-4]) (CPoolSwap 10 (-4) 2 1000 None None None None) (world_of f0) w') /\
  (exists w', passes (only 2 (-3)) (env_of [-4]) (CPoolSwap 10 (-4) 1 1000 None None None None)
     (world_of (f0 ++ [Do [-1] (CPoolConfig 10 None None (Some (-1)) None None None)])) w').
Proof. split; apply passb_ok; vm_compute; reflexivity. Qed.

(** ** C224: "a reward that is due can be withdrawn": refuted.  Token 3 is a third reward asset of which nothing was ever
    distributed; a user that token 3 refuses cannot withdraw the rewards of token 2. *)
Definition f1 : list Act := ssetup ++ [Do [] (CDeployTok 3 (-1) 7); Do [-1] (CFlow 20 (-1) 3)] ++ sbond ++
  [Wait (1000 + 30 * day) 2; Do [-1] (CDistribute 20 (-1) 1000 2); Wait (1000 + 31 * day) 3].
Definition fS : Stake := match fget 20 (w_stake (world_of f1)) with Some s => s | None => mkStake 0 0 0 0 0 0 0 0 fempty fempty [] fempty end.
Example f1_reach : reachable xH (world_of f1). Proof. apply world_reach. vm_compute. reflexivity. Qed.
Example f1_stake : stake_at (world_of f1) 20 fS. Proof. vm_compute. reflexivity. Qed.
Theorem C224_one_asset_stops_all_rewards_refuted : exists w s w1,
  reachable xH w /\ stake_at w 20 s /\ In 3 (s_dists s) /\ fget 3 (s_rh s) = Some fempty /\ bal w 3 20 = 0 /\
  exec (env_of []) (CWithdrawRewards 20 (-2)) w = Ok (tt, w1) /\ bal w 2 (-2) < bal w1 2 (-2) /\
  (forall e w', ~ passes (only 3 (-2)) e (CWithdrawRewards 20 (-2)) w w').
Proof.
  exists (world_of f1), fS, (world_of (f1 ++ [Do [] (CWithdrawRewards 20 (-2))])).
  split; [apply f1_reach|]. split; [apply f1_stake|]. split; [vm_compute; auto|].
  split; [vm_compute; reflexivity|]. split; [vm_compute; reflexivity|]. split; [vm_compute; reflexivity|]. split; [vm_compute; reflexivity|].
  intros e w' X. apply (C223_rewards_need _ _ _ _ _ _ _ f1_stake) in X. destruct X as [_ X].
  assert (I : In 3 (s_dists fS)) by (vm_compute; auto). specialize (X 3 I). apply free2 in X. destruct X as [X _]. discriminate X.
Qed.
Print Assumptions C224_one_asset_stops_all_rewards_refuted.

(** the bonded tokens can be withdrawn, and other users are not affected *)
Example C223_example :
  (exists w', passes (only 3 (-2)) (env_of [-2]) (CUnbond 20 (-2) 600 1000) (world_of f1) w') /\
  (exists w', passes (only 3 (-2)) (env_of []) (CWithdrawRewards 20 (-3)) (world_of f1) w') /\
  (exists w', passes (only 2 (-4)) (env_of [-2]) (CPoolWithdraw 10 (-2) 10000 1 1 None) (world_of f0) w') /\
  passb (only 2 (-2)) [-2] (CPoolWithdraw 10 (-2) 10000 1 1 None) (world_of f0) = false.
Proof. split; [|split; [|split]]; [apply passb_ok; vm_compute; reflexivity..|vm_compute; reflexivity]. Qed.
(** the provider -2, refused by token 2, passes their shares on to -4 *)
Example C225_example :
  (exists w', passes (only 2 (-2)) (env_of [-2]) (CTransfer xshare (-2) (-4) 10000) (world_of f0) w') /\
  (exists w', passes (only 2 (-2)) (env_of [-4]) (CPoolWithdraw 10 (-4) 10000 1 1 None)
     (world_of (f0 ++ [Do [-2] (CTransfer xshare (-2) (-4) 10000)])) w') /\
  bal (world_of f0) xshare (-2) = 1413213.
Proof. split; [|split]; [apply passb_ok; vm_compute; reflexivity..|vm_compute; reflexivity]. Qed.
