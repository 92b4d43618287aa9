(** Concrete cases of the lifetime theorems (C184-C194), and the claims that fail. *)
From Coq Require Import ZArith List Bool Lia.
From Coq Require Import ZifyBool.
From Verif Require Import Base FMap Decimal Curve World Token Stake Pool Stable Rewards Vest Factory Router System SysInv SysFact SysRewards.
From Verif Require Import Touch TouchErase Life TouchCover TouchGrow LifeLemmas TouchLogs Props_Touch.
From Verif Require Import Script Props_Token Props_Pool Props_PoolCases Props_Vest Props_VestCases Props_Stake Props_StakeCases Props_Rewards Props_RewardsCases.
Import ListNotations.
Open Scope list_scope.
Open Scope Z_scope.

(** Scripts with lifetimes; new entries live for 4096 ledgers. *)
Definition xm : Z := 4096.
Inductive LAct := LPlay (a : Script.Act) | LFix (c : Addr) (k : Key).
Definition levent_of (a : LAct) : LEvent :=
  match a with LPlay (Do l k) => LTx (env_of l) k | LPlay (Wait n s) => LTick n s | LFix c k => LRestore c k end.
Definition lplay1 (a : LAct) (s : World * Life) : option (World * Life) :=
  let (w, L) := s in
  match a with
  | LPlay (Do l k) => match zexec (env_of l) k (w, []) with
                      | Ok (_, (w', D)) => match replay xm (w_seq w) L D with Some L' => Some (w', L') | None => None end
                      | Err _ => None end
  | LPlay (Wait n s) => if (w_now w <=? n) && (n <=? U64_MAX) && (w_seq w <=? s) && (s <=? U32_MAX)
                        then Some (set_time w n s, L) else None
  | LFix c k => match L c k with Some v => if v <? w_seq w then Some (w, lset L c k (w_seq w + xm - 1)) else None | None => None end
  end.
Fixpoint lplay (l : list LAct) (s : World * Life) : option (World * Life) :=
  match l with [] => Some s | a :: tl => match lplay1 a s with Some s' => lplay tl s' | None => None end end.
Lemma lplay1_step a w L w' L' : lplay1 a (w, L) = Some (w', L') -> lstep xH xm w L (levent_of a) w' L'.
Proof.
  destruct a as [[sg k|n s]|c k]; simpl.
  - destruct (zexec (env_of sg) k (w, [])) as [[[] [w1 D]]|] eqn:X; [|discriminate].
    destruct (replay xm (w_seq w) L D) as [L1|] eqn:Y; [|discriminate]. intros E. inversion E; subst. econstructor; eauto.
  - destruct (_ && _) eqn:B; [|discriminate]. intros E. inversion E; subst. constructor; lia.
  - destruct (L c k) as [v|] eqn:E0; [|discriminate]. destruct (v <? w_seq w) eqn:B; [|discriminate].
    intros E. inversion E; subst. econstructor; eauto. lia.
Qed.
Lemma lplay_run l : forall w L w' L', lplay l (w, L) = Some (w', L') -> lrun xH xm w L (map levent_of l) w' L'.
Proof.
  induction l as [|a tl IH]; intros w L w' L' E.
  - simpl in E. inversion E; subst. constructor.
  - cbn [lplay] in E. destruct (lplay1 a (w, L)) as [[w1 L1]|] eqn:X; [|discriminate]. simpl. econstructor; [apply lplay1_step; exact X | auto].
Qed.
Definition lend (l : list LAct) : World * Life := match lplay l (w_empty, no_life) with Some s => s | None => (w_empty, no_life) end.
Definition lplays (l : list LAct) : bool := match lplay l (w_empty, no_life) with Some _ => true | None => false end.
Definition lw (l : list LAct) : World := fst (lend l).
Definition ll (l : list LAct) : Life := snd (lend l).
Lemma lplays_run l : lplays l = true -> lrun xH xm w_empty no_life (map levent_of l) (lw l) (ll l).
Proof.
  unfold lplays, lw, ll, lend. destruct (lplay l (w_empty, no_life)) as [[w L]|] eqn:E; [|discriminate]. intros _. apply lplay_run. exact E.
Qed.
Lemma lplays_reach l : lplays l = true -> lreach xH xm (lw l) (ll l).
Proof. intros H. exists (map levent_of l). apply lplays_run, H. Qed.
Definition goes (l : list LAct) (a : LAct) : bool := match lplay1 a (lend l) with Some _ => true | None => false end.
Lemma goes_step l a : goes l a = true -> exists w' L', lstep xH xm (lw l) (ll l) (levent_of a) w' L'.
Proof.
  unfold goes, lw, ll. destruct (lend l) as [w L]. destruct (lplay1 a (w, L)) as [[w' L']|] eqn:E; [|discriminate]. intros _.
  exists w', L'. apply lplay1_step. exact E.
Qed.
Lemma stops_step l sg k : goes l (LPlay (Do sg k)) = false -> forall w' L', ~ lstep xH xm (lw l) (ll l) (LTx (env_of sg) k) w' L'.
Proof.
  unfold goes, lw, ll. destruct (lend l) as [w L]. cbn [fst snd]. intros H w' L' S. inversion S; subst.
  unfold lplay1 in H. match goal with Z : zexec _ _ _ = _, Y : replay _ _ _ _ = _ |- _ => rewrite Z, Y in H end. discriminate.
Qed.
Definition acts := map LPlay.
Definition works (sg : list Addr) (k : Call) (w : World) : bool := match exec (env_of sg) k w with Ok _ => true | Err _ => false end.
Definition record (sg : list Addr) (k : Call) (w : World) : list Touch := match zexec (env_of sg) k (w, []) with Ok (_, (_, D)) => D | Err _ => [] end.

(** the pool of Props_PoolCases *)
Definition tp0 : list LAct := acts (xsetup 30 1000 ++ xfund 1000000 2000000).
Definition tswap : Call := CPoolSwap 10 (-4) 1 1000 None None None None.
Example tp0_plays : lplays tp0 = true. Proof. vm_compute. reflexivity. Qed.
Example tp0_world : lw tp0 = xW. Proof. vm_compute. reflexivity. Qed.

Example C184_example : record [-4] tswap xW <> [] /\ works [-4] tswap xW = true /\
  firstn 6 (record [-4] tswap xW) =
  [mkT 10 YInst Look; mkT 10 YInst (Bump TI); mkT 10 YConfig Look; mkT 10 YConfig (Bump TP); mkT 10 YResA Look; mkT 10 YResA (Bump TP)].
Proof. vm_compute. repeat split; congruence. Qed.

(** ledger 0: the pool's instance lives 7 days, its books 30, its share token 7 *)
Example C185_example : lreach xH xm (lw tp0) (ll tp0) /\ ll tp0 10 YInst = Some 120960 /\ ll tp0 10 YTotal = Some 518400 /\
  ll tp0 1 (YBal (-2)) = Some 518400 /\ ll tp0 10 YName = None /\ present (lw tp0) 10 YName = false.
Proof. split; [apply lplays_reach, tp0_plays|]. vm_compute. auto. Qed.
Definition tp1 : list LAct := tp0 ++ acts [Wait 10 500000].
Example C185_example_lapsed : lreach xH xm (lw tp1) (ll tp1) /\ works [-4] tswap (lw tp1) = true /\
  In (mkT 10 YInst Look) (record [-4] tswap (lw tp1)) /\ ll tp1 10 YInst = Some 120960 /\
  forall w' L', ~ lstep xH xm (lw tp1) (ll tp1) (LTx (env_of [-4]) tswap) w' L'.
Proof.
  split; [apply lplays_reach; vm_compute; reflexivity|]. split; [vm_compute; reflexivity|]. split; [vm_compute; auto|].
  split; [vm_compute; reflexivity|]. apply stops_step. vm_compute. reflexivity.
Qed.

(** a swap in ledger 86400 extends what it uses; nothing shrinks *)
Definition tp2 : list LAct := tp0 ++ acts [Wait 5 86400].
Definition tp3 : list LAct := tp2 ++ acts [Do [-4] tswap].
Example C186_example : lplays tp3 = true /\ ll tp2 10 YResA = Some 518400 /\ ll tp3 10 YResA = Some 604800 /\
  ll tp3 10 YTotal = Some 518400 /\ ll tp3 10 YInst = Some 207360.
Proof. vm_compute. auto. Qed.
Example C187_example : In (mkT 10 YResA Put) (record [-4] tswap (lw tp2)) /\ present (lw tp3) 10 YResA = true /\
  ll tp3 10 YResA = Some 604800 /\ w_seq (lw tp2) + 29 * 17280 < 604800.
Proof. vm_compute. intuition. Qed.
Example C188_example : In (mkT 10 YInst Look) (record [-4] tswap (lw tp2)) /\ ll tp3 10 YInst = Some 207360 /\ w_seq (lw tp2) + 6 * 17280 < 207360.
Proof. vm_compute. intuition. Qed.
(** the calls excepted in C188: [update] of a pool reads the instance and does not extend it, and a
    new pool lives only for the network's minimum *)
Example C188_update_does_not_extend : In (mkT 10 YInst Look) (record [-1] (CPoolUpdate 10 77) (lw tp2)) /\
  lplays (tp2 ++ acts [Do [-1] (CPoolUpdate 10 77)]) = true /\
  ll (tp2 ++ acts [Do [-1] (CPoolUpdate 10 77)]) 10 YInst = ll tp2 10 YInst /\
  ll (acts (xsetup 30 1000)) 10 YInst = Some (xm - 1).
Proof. vm_compute. intuition. Qed.

(** ** C189: rewards that were distributed cannot be withdrawn once the books have lapsed *)
Definition tr0 : list LAct := acts (rsetup ++ rbonds ++ rfund ++ [Wait 1050 10; Do [-7] (CRewDistribute 30 1000000)]).
Definition tr1 : list LAct := tr0 ++ acts [Wait (1000 + 61 * day) 5000].
Definition twd : Call := CRewWithdraw 30 (-2) bA.
(** every other call on the rewards contract extends its configuration and its instance; the
    distribution, born in ledger 0, is not *)
Example C189_example : lplays tr1 = true /\ ll tr0 30 YDistr = Some 4095 /\ ll tr0 30 YCurve = Some 4095 /\ ll tr0 30 (YAdj (-2)) = Some 4096 /\
  ll tr0 30 YConfig = Some 518400 /\ ll tr0 30 YInst = Some 120961.
Proof. vm_compute. auto 10. Qed.
Theorem C189_used_rewards_never_lapse_refuted : ~ (forall H m w L e k w1 L1 c, 1 <= m -> lreach H m w L -> lstep H m w L (LTx e k) w1 L1 ->
  (exists u b, k = CRewWithdraw c u b) -> exists v, L1 c YDistr = Some v /\ w_seq w + 6 * 17280 < v).
Proof.
  intros C. destruct (goes_step tr0 (LPlay (Do [-7] twd))) as (w' & L' & S); [vm_compute; reflexivity|].
  assert (R : lreach xH xm (lw tr0) (ll tr0)) by (apply lplays_reach; vm_compute; reflexivity).
  destruct (C xH xm _ _ _ _ _ _ 30 ltac:(unfold xm; lia) R S (ex_intro _ _ (ex_intro _ _ eq_refl))) as (v & E & V).
  assert (E0 : ll tr0 30 YDistr = Some 4095) by (vm_compute; reflexivity).
  assert (E1 : L' 30 YDistr = Some 4095).
  { eapply (C189_reward_books_are_never_extended xH xm (lw tr0) (ll tr0) [LTx (env_of [-7]) twd] w' L'); eauto.
    econstructor; [exact S | constructor]. }
  rewrite E1 in E. inversion E; subst. assert (Sq : w_seq (lw tr0) = 10) by (vm_compute; reflexivity). lia.
Qed.
Print Assumptions C189_used_rewards_never_lapse_refuted.
Example C189_locked_out : lreach xH xm (lw tr1) (ll tr1) /\ works [-7] twd (lw tr1) = true /\
  reward_now (match fget 30 (w_rewards (lw tr1)) with Some r => r | None => new_rewards 0 0 0 0 0 0 end) (w_now (lw tr1)) (-2) bA = Ok 3000 /\
  (forall w' L', ~ lstep xH xm (lw tr1) (ll tr1) (LTx (env_of [-7]) twd) w' L').
Proof.
  split; [apply lplays_reach; vm_compute; reflexivity|]. split; [vm_compute; reflexivity|]. split; [vm_compute; reflexivity|].
  apply stops_step. vm_compute. reflexivity.
Qed.

(** ** C190: a pool traded every five days; after 30 days nobody can withdraw liquidity *)
Definition tdays : list LAct := acts (concat (map (fun i => [Wait (10 + i) (86400 * i); Do [-4] tswap]) [1; 2; 3; 4; 5; 6; 7])).
Definition tp4 : list LAct := tp0 ++ tdays.
Definition tout : Call := CPoolWithdraw 10 (-2) 1000 1 1 None.
Example C190_example : lplays tp4 = true /\ ll tp4 10 YTotal = Some 518400 /\ w_seq (lw tp4) = 604800 /\
  works [-2] tout (lw tp4) = true /\ goes tp4 (LPlay (Do [-4] tswap)) = true /\ goes tp4 (LPlay (Do [-2] tout)) = false /\
  Forall (fun ev => ~ moves_shares ev /\ ~ outside 10 YTotal ev) (map levent_of tdays).
Proof.
  split; [vm_compute; reflexivity|]. split; [vm_compute; reflexivity|]. split; [vm_compute; reflexivity|]. split; [vm_compute; reflexivity|].
  split; [vm_compute; reflexivity|]. split; [vm_compute; reflexivity|]. repeat constructor; simpl; tauto.
Qed.
Theorem C190_traded_pools_pay_out_refuted : ~ (forall H m w L e k w' e2 k2 w2 L2 p, 1 <= m -> lreach H m w L ->
  (exists u o a mi ms dl mf, k2 = CPoolSwap p u o a mi ms dl mf) -> lstep H m w L (LTx e2 k2) w2 L2 ->
  (exists u s a b dl, k = CPoolWithdraw p u s a b dl) -> e_hash e = H -> exec e k w = Ok (tt, w') ->
  exists L', lstep H m w L (LTx e k) w' L').
Proof.
  intros C. destruct (goes_step tp4 (LPlay (Do [-4] tswap))) as (w2 & L2 & S); [vm_compute; reflexivity|].
  assert (R : lreach xH xm (lw tp4) (ll tp4)) by (apply lplays_reach; vm_compute; reflexivity).
  destruct (exec (env_of [-2]) tout (lw tp4)) as [[[] w']|] eqn:X.
  2:{ assert (W : works [-2] tout (lw tp4) = true) by (vm_compute; reflexivity). unfold works in W. rewrite X in W. discriminate. }
  destruct (C xH xm _ _ (env_of [-2]) tout w' (env_of [-4]) tswap w2 L2 10 ltac:(unfold xm; lia) R) as (L' & S'); auto.
  - unfold tswap. repeat eexists.
  - unfold tout. repeat eexists.
  - revert S'. apply stops_step. vm_compute. reflexivity.
Qed.
Print Assumptions C190_traded_pools_pay_out_refuted.

(** ** C191: restoring three entries brings the rewards back *)
Example C191_example : goes tr1 (LPlay (Do [-7] twd)) = false /\
  goes (tr1 ++ [LFix 30 YDistr; LFix 30 (YAdj (-2))]) (LPlay (Do [-7] twd)) = true.
Proof. vm_compute. auto. Qed.

(** ** C192 *)
Definition tp5 : list LAct := tp3 ++ acts [Wait 10 587520].
Example C192_example : lplays tp5 = true /\ In (mkT 10 YResA Put) (record [-4] tswap (lw tp2)) /\ w_seq (lw tp5) = w_seq (lw tp2) + 29 * 17280 /\
  ll tp5 10 YResA = Some 604800.
Proof. vm_compute. intuition. Qed.

(** ** C193: the grant of ledger 1 to -5 lapses while grants to others keep the contract alive *)
Definition tgrant (u : Addr) : Script.Act := Do [-1] (CVestCreate 30 [(u, SatLin 100 100 200 0)]).
Definition tv0 : list LAct := acts (v1 ++ concat (map (fun i => [Wait 95 (100000 * i); tgrant (- 10 - i)]) [1; 2; 3; 4; 5; 6])).
Example C193_example : lplays tv0 = true /\ ll tv0 30 (YVest (-5) 0) = Some 518401 /\ w_seq (lw tv0) = 600000 /\
  goes tv0 (LPlay (tgrant (-20))) = true /\ works [-1] (CVestCreate 30 [(-5, SatLin 100 100 200 0)]) (lw tv0) = true /\
  goes tv0 (LPlay (tgrant (-5))) = false.
Proof. vm_compute. auto 10. Qed.

(** ** C194: -4 bonds although the record of -2 has lapsed *)
Definition tk0 : list LAct := acts
  ([Do [] (CDeployTok 1 (-1) 7); Do [-1] (CMint 1 (-2) 100000); Do [-1] (CMint 1 (-4) 100000); Do [] (CDeploy 30 KStake);
    Do [] (CStakeInit 30 (-1) 1 100 100 (-1) (-1) 5); Do [-2] (CBond 30 (-2) 1000)] ++
   concat (map (fun i => [Wait (95 + i) (100000 * i); Do [-4] (CBond 30 (-4) 1000)]) [1; 2; 3; 4; 5; 6])).
Example C194_example : lplays tk0 = true /\ ll tk0 30 (YUser (-2)) = Some 518400 /\ w_seq (lw tk0) = 600000 /\
  goes tk0 (LPlay (Do [-2] (CBond 30 (-2) 1000))) = false /\ goes tk0 (LPlay (Do [-4] (CBond 30 (-4) 1000))) = true /\
  In (mkT 30 (YUser (-4)) Put) (record [-4] (CBond 30 (-4) 1000) (lw tk0)) /\ In (mkT 1 (YBal (-4)) Put) (record [-4] (CBond 30 (-4) 1000) (lw tk0)).
Proof. vm_compute. intuition. Qed.
Definition tv1 : list LAct := tv0 ++ acts [Wait 125 600001].
Example C194_example_claim : lplays tv1 = true /\ goes tv1 (LPlay (Do [-16] (CVestClaim 30 (-16) 0))) = true /\
  goes tv1 (LPlay (Do [-5] (CVestClaim 30 (-5) 0))) = false /\ works [-5] (CVestClaim 30 (-5) 0) (lw tv1) = true.
Proof. vm_compute. auto. Qed.
