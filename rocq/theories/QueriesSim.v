(** A query gives the same answer in any two ledgers that agree on the time and on the entries
    the query reads. *)
From Coq Require Import ZArith List Bool Lia.
From Verif Require Import Base FMap Decimal Curve World Token Stake Pool Stable Rewards Vest Factory Router Extra System.
From Verif Require Import Touch TouchErase Life TouchCover TouchGrow LifeLemmas TouchLogs Footprint FootprintSim Queries QueriesErase QueriesObs.
Import ListNotations.
Open Scope list_scope.
Open Scope Z_scope.

Lemma grow_obs {A} (m : TST A) Q : (forall w, obs w m Q) -> logs (fun _ => True) m.
Proof.
  intros H w l. destruct (m (w, l)) as [[a [w' l']]|] eqn:E; auto. destruct (H w _ _ _ E) as (D & X & _ & _). inversion X; subst. eauto.
Qed.
#[export] Hint Resolve ob_pool_info ob_stable_info ob_stable_total ob_distributed ob_undistributed ob_vest_balance ob_vest_info
  ob_details ob_all_details ob_asset ob_trader_balances ob_trader_out ob_rows ob_folio : obsdb.

Section Calls.
Variable F : Addr -> Key -> Prop.
Local Notation sim := (sim F).
Local Notation det m := (sim m m eq).

Lemma e_r_token2 c p q : rewardsrel F c p q -> F c YDistr -> r_token p = r_token q.
Proof. intros R H. pose proof (rr_distr _ _ _ _ R H) as E. unfold distribution in E. congruence. Qed.

Ltac rws := repeat match goal with
  | W : Rw F ?a ?b, H : F ?c YInst |- context [fmem ?c (w_stake ?a)] => rewrite (e_w_stake F _ _ _ W H)
  | W : Rw F ?a ?b, H : F ?c YInit |- context [fmem ?c (w_pool ?a)] => rewrite (e_w_pool F _ _ _ W H)
  | W : Rw F ?a ?b, H : F ?c YInit |- context [fmem ?c (w_stable ?a)] => rewrite (e_w_stable F _ _ _ W H)
  | W : Rw F ?a ?b, H : F ?c YInit |- context [fmem ?c (w_rewards ?a)] => rewrite (e_w_rewards F _ _ _ W H)
  | W : Rw F ?a ?b, H : F ?c YInit |- context [fmem ?c (w_fact ?a)] => rewrite (e_w_fact F _ _ _ W H)
  | W : Rw F ?a ?b, H : F ?c YInit |- context [fmem ?c (w_hop ?a)] => rewrite (e_w_hop F _ _ _ W H)
  | W : Rw F ?a ?b, H : F ?c YInit |- context [fmem ?c (w_trader ?a)] => rewrite (e_w_trader F _ _ _ W H)
  | W : Rw F ?a ?b, H : F ?c YInst |- context [fmem ?c (w_vest ?a)] => rewrite (e_w_vest F _ _ _ W H)
  | R : poolrel F ?c ?p ?q, H : F ?c YConfig |- _ => progress rewrite ?(e_p_ta F _ _ _ R H), ?(e_p_tb F _ _ _ R H), ?(e_p_share F _ _ _ R H), ?(e_p_stake F _ _ _ R H), ?(e_p_fee F _ _ _ R H), ?(e_p_feerec F _ _ _ R H), ?(e_p_maxslip F _ _ _ R H), ?(e_p_maxspread F _ _ _ R H), ?(e_p_maxref F _ _ _ R H)
  | R : stakerel F ?c ?p ?q, H : F ?c YConfig |- _ => progress rewrite ?(e_s_lp F _ _ _ R H), ?(e_s_minbond F _ _ _ R H), ?(e_s_minreward F _ _ _ R H), ?(e_s_manager F _ _ _ R H), ?(e_s_owner F _ _ _ R H), ?(e_s_maxc F _ _ _ R H)
  | R : rewardsrel F ?c ?p ?q, H : F ?c YConfig |- _ => progress rewrite ?(e_r_staking F _ _ _ R H), ?(e_r_token F _ _ _ R H), ?(e_r_maxc F _ _ _ R H), ?(e_r_minreward F _ _ _ R H), ?(e_r_minbond F _ _ _ R H)
  | R : rewardsrel F ?c ?p ?q, H : F ?c YDistr |- _ => progress rewrite ?(e_r_spp F _ _ _ R H), ?(e_r_left F _ _ _ R H), ?(e_r_dist F _ _ _ R H), ?(e_r_wdr F _ _ _ R H), ?(e_r_token2 _ _ _ R H)
  | R : factrel F ?c ?p ?q, H : F ?c YConfig |- _ => progress rewrite ?(e_f_admin F _ _ _ R H), ?(e_f_hop F _ _ _ R H), ?(e_f_lphash F _ _ _ R H), ?(e_f_stakehash F _ _ _ R H), ?(e_f_tokhash F _ _ _ R H), ?(e_f_white F _ _ _ R H), ?(e_f_lpdec F _ _ _ R H)
  | R : vestrel F ?c ?p ?q, H : F ?c YInst |- _ => progress rewrite ?(e_v_token F _ _ _ R H), ?(e_v_maxc F _ _ _ R H), ?(e_v_minter F _ _ _ R H)
  | R : tokrel F ?c ?p ?q, H : F ?c YInst |- _ => progress rewrite ?(e_t_admin F _ _ _ R H), ?(e_t_dec F _ _ _ R H), ?(e_t_allow F _ _ _ R H)
  | R : poolrel F ?c ?p ?q, H : F ?c YAdmin |- _ => progress rewrite ?(pr_admin _ _ _ _ R H)
  | R : poolrel F ?c ?p ?q, H : F ?c YSlip |- _ => progress rewrite ?(pr_slip _ _ _ _ R H)
  | R : poolrel F ?c ?p ?q, H : F ?c YTotal |- _ => progress rewrite ?(pr_total _ _ _ _ R H)
  | R : poolrel F ?c ?p ?q, H : F ?c YResA |- _ => progress rewrite ?(pr_ra _ _ _ _ R H)
  | R : poolrel F ?c ?p ?q, H : F ?c YResB |- _ => progress rewrite ?(pr_rb _ _ _ _ R H)
  | R : stakerel F ?c ?p ?q, H : F ?c YAdmin |- _ => progress rewrite ?(kr_admin _ _ _ _ R H)
  | R : stakerel F ?c ?p ?q, H : F ?c YStaked |- _ => progress rewrite ?(kr_total _ _ _ _ R H)
  | R : stakerel F ?c ?p ?q, H : F ?c YTotHist |- _ => progress rewrite ?(kr_tsh _ _ _ _ R H)
  | R : stakerel F ?c ?p ?q, H : F ?c YDists |- _ => progress rewrite ?(kr_dists _ _ _ _ R H)
  | R : rewardsrel F ?c ?p ?q, H : F ?c YAdmin |- _ => progress rewrite ?(rr_admin _ _ _ _ R H)
  | R : rewardsrel F ?c ?p ?q, H : F ?c YCurve |- _ => progress rewrite ?(rr_curve _ _ _ _ R H)
  | R : vestrel F ?c ?p ?q, H : F ?c YAdmin |- _ => progress rewrite ?(vr_admin _ _ _ _ R H)
  | R : factrel F ?c ?p ?q, H : F ?c YLps |- _ => progress rewrite ?(fr_lps _ _ _ _ R H)
  | R : factrel F ?c ?p ?q, H : F ?c YStab |- _ => progress rewrite ?(fr_stab _ _ _ _ R H)
  | R : traderrel F ?c ?p ?q, H : F ?c YAdmin |- _ => progress rewrite ?(dr_admin _ _ _ _ R H)
  | R : traderrel F ?c ?p ?q, H : F ?c YTOut |- _ => progress rewrite ?(dr_out _ _ _ _ R H)
  | R : stakerel F ?c ?p ?q, H : F ?c (YUser ?u) |- _ => progress rewrite ?(e_s_user F _ _ _ _ R H)
  | R : stakerel F ?c ?p ?q, H : F ?c (YHist ?u) |- _ => progress rewrite ?(kr_rh _ _ _ _ R _ H)
  | R : rewardsrel F ?c ?p ?q, H : F ?c (YAdj ?u) |- _ => progress rewrite ?(e_r_adj_of F _ _ _ _ R H)
  | R : rewardsrel F ?c ?p ?q, H : F ?c YConfig |- context [calc_power ?p ?x] => progress rewrite ?(e_power F _ _ _ x R H)
  | R : rewardsrel F ?c ?p ?q, H : F ?c YConfig, H1 : F ?c YDistr, H2 : F ?c (YAdj ?u) |- context [reward_now ?p ?t ?u ?b] =>
      progress rewrite ?(e_reward_now F _ _ _ t u b R H H1 H2)
  | R : vestrel F ?c ?p ?q, H : F ?c (YVest ?u ?i) |- _ => progress rewrite ?(e_v_get F _ _ _ _ _ R H)
  | R : vestrel F ?c ?p ?q, H : F ?c (YVest ?u ?i) |- context [available ?p ?t ?u ?i] => progress rewrite ?(e_available F _ _ _ _ _ t R H)
  | R : traderrel F ?c ?p ?q, H : F ?c YTPair |- _ => progress rewrite ?(e_d_ta F _ _ _ R H), ?(e_d_tb F _ _ _ R H)
  end.
Ltac lgq := cbv zeta; lazymatch goal with
  | |- logs _ (mbind _ _) => apply (lg_bind (fun _ => True)); [exact (fun _ _ _ _ => I) | lgq | intros ?; lgq]
  | |- logs _ (match ?t with _ => _ end) => destruct t; lgq
  | |- _ => first [solve [logT] | eapply grow_obs; intros ?; solve [eauto with obsdb]] end.
Ltac lgz := unfold grow; lgq.
(** what a note says about the listed entries *)
Ltac facts H := unfold got_notes, wrote_notes in H; cbn [flat_map map app] in H; rewrite ?(within_cons F), ?(within_app F) in H; cbn [x_at x_key] in H;
  repeat match type of H with _ /\ _ => let H1 := fresh "Fy" in destruct H as [H1 H] end; try clear H.
Ltac emleaf := unfold come, seen, instP, got, peek, looks, wrote, puts, got_notes, wrote_notes; apply em_note; simpl; solve [auto 16].
Ltac emz := cbv zeta; lazymatch goal with
  | |- emits _ (mbind _ _) => first [apply em_l; [solve [emleaf] | intros ?; solve [lgz]] | apply em_r; [solve [lgz] | intros ?; emz]]
  | |- emits _ (match ?t with _ => _ end) => destruct t; emz
  | |- _ => emleaf end.
Ltac ahead c y a := apply (sim_ahead F (mkT c y a)); [solve [emz] | let H := fresh "Fy" in intro H; cbn [x_at x_key] in H].
Ltac post H := cbn beta in H; lazymatch type of H with
  | within F _ => facts H
  | _ = _ => try subst
  | True => clear H
  | _ /\ _ => let H1 := fresh "R" in let H2 := fresh "N" in destruct H as [H1 H2]; post H1; post H2
  | _ => idtac end.
Ltac prim := lazymatch goal with
  | |- Footprint.sim _ (tf mget) _ _ => apply sim_mget
  | |- Footprint.sim _ (tf now) _ _ => apply sim_now
  | |- Footprint.sim _ (tf (enter _ _)) _ _ => apply sim_enter; assumption
  | |- Footprint.sim _ (tf (get_pool _)) _ _ => match goal with H : F ?c ?y |- Footprint.sim _ (tf (_ ?c)) _ _ => apply (sim_get_pool F c y H eq_refl) end
  | |- Footprint.sim _ (tf (get_stake _)) _ _ => match goal with H : F ?c ?y |- Footprint.sim _ (tf (_ ?c)) _ _ => apply (sim_get_stake F c y H eq_refl) end
  | |- Footprint.sim _ (tf (get_rewards _)) _ _ => match goal with H : F ?c ?y |- Footprint.sim _ (tf (_ ?c)) _ _ => apply (sim_get_rewards F c y H eq_refl) end
  | |- Footprint.sim _ (tf (get_fact _)) _ _ => match goal with H : F ?c ?y |- Footprint.sim _ (tf (_ ?c)) _ _ => apply (sim_get_fact F c y H eq_refl) end
  | |- Footprint.sim _ (tf (get_trader _)) _ _ => match goal with H : F ?c ?y |- Footprint.sim _ (tf (_ ?c)) _ _ => apply (sim_get_trader F c y H eq_refl) end
  | |- Footprint.sim _ (tf (get_vest _)) _ _ => apply sim_get_vest; assumption
  | |- Footprint.sim _ (tf (get_stable _)) _ _ => apply sim_get_stable; assumption
  | |- Footprint.sim _ (tf (get_hop _)) _ _ => apply sim_get_hop; assumption
  | |- Footprint.sim _ (tf (get_tok _)) _ _ => apply sim_get_tok; assumption
  | |- Footprint.sim _ (mguard _ _) _ _ => apply sim_guard; try exact (fun H => H)
  | |- Footprint.sim _ (mlift _) _ _ => apply sim_lift_eq
  | |- Footprint.sim _ (come _) _ _ => apply sim_note
  | |- Footprint.sim _ (seen _) _ _ => apply sim_note
  | |- Footprint.sim _ (instP _) _ _ => apply sim_note
  | |- Footprint.sim _ (got _ _) _ _ => apply sim_note
  | |- Footprint.sim _ (peek _ _) _ _ => apply sim_note
  | |- Footprint.sim _ (looks _ _) _ _ => apply sim_note
  | |- Footprint.sim _ (wrote _ _) _ _ => apply sim_note
  | |- Footprint.sim _ (puts _ _) _ _ => apply sim_note
  | |- Footprint.sim _ (tnote _) _ _ => apply sim_note
  | |- _ => solve [eauto with sims] end.
Ltac getz := lazymatch goal with
  | |- Footprint.sim _ (z_get_pool _ _) _ _ => eapply sim_z_get_pool; [left; reflexivity | reflexivity]
  | |- Footprint.sim _ (z_get_stake _ []) _ _ => apply sim_z_get_stake0; assumption
  | |- Footprint.sim _ (z_get_stake _ _) _ _ => eapply sim_z_get_stake; [left; reflexivity | reflexivity]
  | |- Footprint.sim _ (z_get_fact _ _) _ _ => eapply sim_z_get_fact; [left; reflexivity | reflexivity]
  | |- Footprint.sim _ (z_get_trader _ _) _ _ => eapply sim_z_get_trader; [left; reflexivity | reflexivity]
  | |- Footprint.sim _ (z_get_rewards _ _ _) _ _ => eapply sim_z_get_rewards; [left; reflexivity | reflexivity]
  | |- Footprint.sim _ (z_get_vest _ _) _ _ => apply sim_z_get_vest; assumption
  | |- _ => prim end.
Ltac s2 := cbv zeta; lazymatch goal with
  | |- Footprint.sim _ (mbind (mbind _ _) _) (mbind (mbind _ _) _) _ => eapply sim_bind; [solve [lgz] | intros ?; solve [lgz] | | ]
  | |- Footprint.sim _ (mbind _ _) (mbind _ _) _ =>
      eapply sim_bind; [solve [lgz] | intros ?; solve [lgz] | solve [getz] | let H := fresh "Q" in intros ? ? H; post H; rws]
  | |- Footprint.sim _ (mret _) _ _ => apply sim_ret
  | |- Footprint.sim _ (mfail _) _ _ => apply sim_fail
  | |- Footprint.sim _ (match ?t with _ => _ end) (match ?t with _ => _ end) _ => destruct t eqn:?
  | |- Footprint.sim _ _ _ (fun _ _ => True) => eapply sim_post; [solve [prim] | auto]
  | |- Footprint.sim _ _ _ ?Q => is_evar Q; solve [prim]
  | |- forall _ _, _ -> Footprint.sim _ _ _ _ => let H := fresh "Q" in intros ? ? H; post H; rws
  end.
#[local] Hint Resolve sim_balance sim_decimals sim_pool_by_pair : sims.
Lemma sim_pool_query p y ks : pool_key y = true ->
  sim (z_pool_query p (y :: ks)) (z_pool_query p (y :: ks)) (fun a b => poolrel F p a b /\ within F (got_notes p (y :: ks))).
Proof.
  intros K. unfold z_pool_query. ahead p YInst Look. s2. s2. eapply sim_z_get_pool; [left; reflexivity | exact K].
Qed.
Lemma sim_stable_query p : det (z_stable_query p).
Proof. unfold z_stable_query. ahead p YInst Look. repeat s2. apply sim_get_stable; assumption. Qed.
Lemma sim_stake_query p ks pk : (ks = [] \/ exists y tl, ks = y :: tl /\ stake_key y = true) ->
  sim (z_stake_query p ks pk) (z_stake_query p ks pk) (fun a b => stakerel F p a b /\ within F (got_notes p ks) /\ within F (map (fun k => mkT p k Peek) pk)).
Proof.
  intros K. unfold z_stake_query. ahead p YInst Look. s2. s2.
  eapply sim_bind; [solve [lgz] | intros ?; solve [lgz] | instantiate (1 := fun a b => stakerel F p a b /\ within F (got_notes p ks)) |].
  - destruct K as [-> | (y & tl & -> & K)]; [apply sim_z_get_stake0; auto | eapply sim_z_get_stake; [left; reflexivity | exact K]].
  - intros sa sb [R W]. eapply sim_bind; [solve [lgz] | intros ?; solve [lgz] | apply sim_note | intros ? ? W2; cbn beta in W2]. apply sim_ret. auto.
Qed.
Lemma sim_rewards_query p y ks ls : rewards_key y = true -> In y (ks ++ ls) ->
  sim (z_rewards_query p ks ls) (z_rewards_query p ks ls)
    (fun a b => rewardsrel F p a b /\ within F (got_notes p ks) /\ within F (map (fun k => mkT p k Look) ls)).
Proof.
  intros K I. unfold z_rewards_query. ahead p YInst Look. s2. s2. unfold z_get_rewards.
  apply (sim_ahead F (mkT p y Look)).
  { apply em_r; [solve [lgz] | intros ?]. apply in_app_or in I as [I|I].
    - apply em_l; [|intros ?; solve [lgz]]. apply em_note. apply in_flat_map. exists y. simpl. auto.
    - apply em_r; [solve [lgz] | intros ?]. apply em_l; [|intros ?; solve [lgz]]. apply em_note. apply in_map_iff. eauto. }
  intros Fyy. cbn in Fyy.
  eapply sim_bind; [solve [lgz] | intros ?; solve [lgz] | eapply sim_get_rewards; eassumption | intros sa sb R].
  eapply sim_bind; [solve [lgz] | intros ?; solve [lgz] | apply sim_note | intros ? ? W; cbn beta in W].
  eapply sim_bind; [solve [lgz] | intros ?; solve [lgz] | apply sim_note | intros ? ? W2; cbn beta in W2]. apply sim_ret. auto.
Qed.
Lemma sim_vest_query p ks : sim (z_vest_query p ks) (z_vest_query p ks) (fun a b => vestrel F p a b /\ within F [mkT p YInst Look] /\ within F (got_notes p ks)).
Proof.
  unfold z_vest_query. ahead p YInst Look. s2. s2. eapply sim_post; [apply sim_z_get_vest; auto | intros sa sb [R W]]. split; [auto | split; [|auto]].
  apply within_cons. split; [exact Fy | intros x []].
Qed.
Lemma sim_fact_query p y ks : fact_key y = true ->
  sim (z_fact_query p (y :: ks)) (z_fact_query p (y :: ks)) (fun a b => factrel F p a b /\ within F (got_notes p (y :: ks))).
Proof.
  intros K. unfold z_fact_query. ahead p YInst Look. s2. s2. eapply sim_z_get_fact; [left; reflexivity | exact K].
Qed.
Lemma sim_trader_query p y ks : trader_key y = true ->
  sim (z_trader_query p (y :: ks)) (z_trader_query p (y :: ks)) (fun a b => traderrel F p a b /\ within F (got_notes p (y :: ks))).
Proof.
  intros K. unfold z_trader_query. ahead p YInst Look. s2. s2. eapply sim_z_get_trader; [left; reflexivity | exact K].
Qed.
Lemma sim_trader_name p : sim (z_trader_query p [YName]) (z_trader_query p [YName]) (fun _ _ => True).
Proof.
  unfold z_trader_query, z_get_trader. ahead p YInst Look. ahead p YName Look. s2. s2.
  eapply sim_bind; [solve [lgz] | intros ?; solve [lgz] | instantiate (1 := fun _ _ => True) | intros ? ? _].
  - apply sim_read. intros w1 w2 r1 w1' W X. unfold get_trader in *. destruct (fget p (w_trader w1)) as [d|] eqn:G; [|discriminate].
    inversion X; subst; clear X. split; auto. pose proof (rw_same _ _ _ W _ _ Fy0) as Z. simpl in Z. destruct (fmem_some _ _ _ _ Z G) as [y G2].
    rewrite G2. eauto.
  - eapply sim_bind; [solve [lgz] | intros ?; solve [lgz] | apply sim_note | intros ? ? W2]. apply sim_ret. auto.
Qed.
Ltac qh := lazymatch goal with
  | |- Footprint.sim _ (z_pool_query _ _) _ _ => apply sim_pool_query; reflexivity
  | |- Footprint.sim _ (z_stable_query _) _ _ => apply sim_stable_query
  | |- Footprint.sim _ (z_stake_query _ [] _) _ _ => apply sim_stake_query; left; reflexivity
  | |- Footprint.sim _ (z_stake_query _ _ _) _ _ => apply sim_stake_query; right; eexists _, _; split; reflexivity
  | |- Footprint.sim _ (z_rewards_query _ (?y :: _) _) _ _ => apply (sim_rewards_query _ y); [reflexivity | simpl; auto]
  | |- Footprint.sim _ (z_rewards_query _ [] (?y :: _)) _ _ => apply (sim_rewards_query _ y); [reflexivity | simpl; auto]
  | |- Footprint.sim _ (z_vest_query _ _) _ _ => apply sim_vest_query
  | |- Footprint.sim _ (z_fact_query _ _) _ _ => apply sim_fact_query; reflexivity
  | |- Footprint.sim _ (z_trader_query _ _) _ _ => apply sim_trader_query; reflexivity
  | |- _ => getz end.
Ltac s3 := cbv zeta; lazymatch goal with
  | |- Footprint.sim _ (mbind _ _) (mbind _ _) _ =>
      eapply sim_bind; [solve [lgz] | intros ?; solve [lgz] | solve [qh] | let H := fresh "Q" in intros ? ? H; post H; rws]
  | |- Footprint.sim _ (mret _) _ _ => apply sim_ret; rws; try reflexivity
  | |- Footprint.sim _ (mfail _) _ _ => apply sim_fail
  | |- Footprint.sim _ (match ?t with _ => _ end) (match ?t with _ => _ end) _ => destruct t eqn:?
  | |- Footprint.sim _ (mlift _) (mlift _) eq => rws; apply sim_lift_eq
  | |- Footprint.sim _ _ _ eq => solve [auto with sims]
  end.
Lemma sim_pool_info p : det (z_pool_info p). Proof. unfold z_pool_info. repeat s3. Qed.
Lemma sim_stable_info p : det (z_stable_info p). Proof. unfold z_stable_info. repeat s3. Qed.
Lemma sim_pool_simulate p o a : det (z_pool_simulate p o a). Proof. unfold z_pool_simulate. repeat s3. Qed.
Lemma sim_pool_reverse p o a : det (z_pool_reverse p o a). Proof. unfold z_pool_reverse. repeat s3. Qed.
Lemma sim_pool_share p a : det (z_pool_share p a). Proof. unfold z_pool_share. repeat s3. Qed.
Lemma sim_stable_simulate p o a : det (z_stable_simulate p o a). Proof. unfold z_stable_simulate. repeat s3. Qed.
Lemma sim_stable_reverse p o a : det (z_stable_reverse p o a). Proof. unfold z_stable_reverse. repeat s3. Qed.
Lemma sim_stable_share p a : det (z_stable_share p a). Proof. unfold z_stable_share. repeat s3. Qed.
Lemma sim_stable_total p : det (z_stable_total p). Proof. unfold z_stable_total. ahead p YInst Look. repeat s3. Qed.
Lemma sim_staked k u : det (z_staked k u). Proof. unfold z_staked. repeat s3. Qed.
#[local] Hint Resolve sim_pool_info sim_stable_info sim_pool_simulate sim_pool_reverse sim_pool_share sim_stable_simulate sim_stable_reverse sim_stable_share sim_stable_total sim_staked : sims.

Lemma sim_any {A} p (mp ms : TST A) : emits (mkT p YInst Look) mp -> emits (mkT p YInst Look) ms -> det mp -> det ms ->
  det (w <- tf mget ;; match fget p (w_code w) with Some KPool => mp | Some KStable => ms | _ => mfail EHost end).
Proof.
  intros E1 E2 S1 S2 w1 w2 l1 l2 r1 w1' D W X I. unfold mbind, tf, mget in X |- *. cbn in X |- *.
  assert (G : F p YInst -> fget p (w_code w1) = fget p (w_code w2)) by (intros H; apply (rw_same _ _ _ W _ _ H)).
  destruct (fget p (w_code w1)) as [k|] eqn:K; [|discriminate]. destruct k; try discriminate.
  - specialize (E1 w1 l1). rewrite X in E1. destruct E1 as (D' & Y & J). apply app_inv_head in Y. subst D'.
    rewrite <- (G (I _ J)). apply (S1 w1 w2 l1 l2 r1 w1' D W X I).
  - specialize (E2 w1 l1). rewrite X in E2. destruct E2 as (D' & Y & J). apply app_inv_head in Y. subst D'.
    rewrite <- (G (I _ J)). apply (S2 w1 w2 l1 l2 r1 w1' D W X I).
Qed.
Lemma em_pool_query p ks : emits (mkT p YInst Look) (z_pool_query p ks). Proof. unfold z_pool_query. emz. Qed.
Lemma em_stable_query p : emits (mkT p YInst Look) (z_stable_query p). Proof. unfold z_stable_query. emz. Qed.
Ltac emq := apply em_l; [first [apply em_pool_query | apply em_stable_query] | intros ?; solve [lgz]].
Lemma sim_any_info p : det (z_any_info p).
Proof. unfold z_any_info. apply sim_any; auto with sims; [unfold z_pool_info | unfold z_stable_info]; emq. Qed.
Lemma sim_any_share p a : det (z_any_share p a).
Proof. unfold z_any_share. apply sim_any; auto with sims; [unfold z_pool_share | unfold z_stable_share]; emq. Qed.
Lemma sim_any_simulate p o a : det (z_any_simulate p o a).
Proof. unfold z_any_simulate. apply sim_any; auto with sims; [unfold z_pool_simulate | unfold z_stable_simulate]; emq. Qed.
Lemma sim_any_reverse p o a : det (z_any_reverse p o a).
Proof. unfold z_any_reverse. apply sim_any; auto with sims; [unfold z_pool_reverse | unfold z_stable_reverse]; emq. Qed.
#[local] Hint Resolve sim_any_info sim_any_share sim_any_simulate sim_any_reverse : sims.

Lemma e_pending c p q t a b : stakerel F c p q -> F c (YHist a) -> F c YTotHist -> pending_rewards p t a b = pending_rewards q t a b.
Proof. intros R H T. unfold pending_rewards. rewrite (kr_rh _ _ _ _ R _ H), (kr_tsh _ _ _ _ R T). reflexivity. Qed.
Lemma sim_query_pending c p q t b l : stakerel F c p q -> sim (z_query_pending c p t b l) (z_query_pending c q t b l) eq.
Proof.
  intros R. induction l as [|a tl IH]; cbn [z_query_pending]; [apply sim_ret; reflexivity|].
  ahead c (YHist a) Look. ahead c YTotHist Look. rewrite (e_pending c p q t a b R Fy Fy0). s3. s3.
  eapply sim_bind; [solve [lgz] | intros ?; solve [lgz] | exact IH | intros x ? <-]. s3.
Qed.
Lemma sim_stake_rewards k u : det (z_stake_rewards k u).
Proof. unfold z_stake_rewards. s3. s3. apply sim_query_pending. assumption. Qed.
Lemma sim_annualized r n : det (z_annualized r n).
Proof. unfold z_annualized. repeat s3. Qed.
Lemma sim_withdrawable r u b : det (z_withdrawable r u b).
Proof. unfold z_withdrawable. repeat s3. Qed.
Lemma sim_distributed r a : det (z_distributed r a).
Proof. unfold z_distributed. repeat s3. Qed.
Lemma sim_undistributed r a : det (z_undistributed r a).
Proof. unfold z_undistributed. repeat s3. Qed.
Lemma sim_vest_balance v u : det (z_vest_balance v u).
Proof. unfold z_vest_balance. repeat s3. Qed.
Lemma sim_vest_info v u i : det (z_vest_info v u i).
Proof. unfold z_vest_info. ahead v (YVest u i) Look. repeat s3. Qed.
Lemma sim_vest_claimable v u i : det (z_vest_claimable v u i).
Proof. unfold z_vest_claimable. ahead v (YVest u i) Look. repeat s3. Qed.
Definition enough (f : nat) (i : Z) (m : fmap VInfo) : Prop := exists n, (n < f)%nat /\ fget (i + Z.of_nat n) m = None.
Lemma sim_all_from c u m1 m2 : (forall j, F c (YVest u j) -> fget j m1 = fget j m2) -> forall f1 f2 i, enough f1 i m1 -> enough f2 i m2 ->
  sim (z_all_from f1 c u i m1) (z_all_from f2 c u i m2) eq.
Proof.
  intros E. induction f1 as [|f1 IH]; intros f2 i (n1 & L1 & N1) (n2 & L2 & N2); [lia|]. destruct f2 as [|f2]; [lia|]. cbn [z_all_from].
  s3. rewrite (E i) by assumption. destruct (fget i m2) eqn:G; [|s3].
  assert (G1 : fget i m1 = Some v) by (rewrite E; assumption).
  eapply sim_bind; [solve [lgz] | intros ?; solve [lgz] | apply IH | intros x ? <-; s3].
  - destruct n1 as [|n1]; [rewrite Z.add_0_r in N1; congruence|]. exists n1. split; [lia|]. rewrite <- N1. f_equal. lia.
  - destruct n2 as [|n2]; [rewrite Z.add_0_r in N2; congruence|]. exists n2. split; [lia|]. rewrite <- N2. f_equal. lia.
Qed.
Lemma enough_len (m : fmap VInfo) : enough (S (length m)) 0 m.
Proof.
  destruct (free_spec m) as (A & B & C). destruct (first_free_spec (S (length m)) 0 m) as (A1 & _ & _). cbv zeta in *.
  set (i := first_free (S (length m)) 0 m) in *. assert (P := dense_len m (Z.to_nat i)).
  assert (Z.to_nat i <= length m)%nat by (apply P; intros j J; apply C; lia).
  exists (Z.to_nat i). split; [lia|]. rewrite Z2Nat.id by lia. unfold fmem in B. rewrite Z.add_0_l. destruct (fget i m); [discriminate | reflexivity].
Qed.
Lemma sim_vest_all v u : det (z_vest_all v u).
Proof. unfold z_vest_all. s3. apply sim_all_from; try apply enough_len. intros j H. eapply vr_ent; eassumption. Qed.
Lemma sim_details f p : det (z_details f p).
Proof. unfold z_details. ahead f YInst Look. repeat s3. Qed.
Lemma sim_rows l : det (z_rows l).
Proof. induction l as [|p tl IH]; cbn [z_rows]; repeat s3. Qed.
#[local] Hint Resolve sim_rows : sims.
Lemma sim_all_details f : det (z_all_details f).
Proof. unfold z_all_details. repeat s3. Qed.
Lemma sim_portfolio u b l : det (z_portfolio l u b).
Proof. induction l as [|p tl IH]; cbn [z_portfolio]; repeat s3. Qed.
#[local] Hint Resolve sim_portfolio : sims.
Lemma sim_folio f u b : det (z_folio f u b).
Proof. unfold z_folio. repeat s3. Qed.
Lemma sim_hop_sims f ops : forall a, det (z_hop_sims f ops a).
Proof. induction ops as [|o tl IH]; intros a; cbn [z_hop_sims]; repeat s3. Qed.
Lemma sim_hop_revs f ops : forall a, det (z_hop_revs f ops a).
Proof. induction ops as [|o tl IH]; intros a; cbn [z_hop_revs]; repeat s3. Qed.
#[local] Hint Resolve sim_hop_sims sim_hop_revs : sims.
Lemma sim_hop_simulate h ops a : det (z_hop_simulate h ops a).
Proof. unfold z_hop_simulate. ahead h YInst Look. repeat s3. Qed.
Lemma sim_hop_reverse h ops a : det (z_hop_reverse h ops a).
Proof. unfold z_hop_reverse. ahead h YInst Look. repeat s3. Qed.
Lemma sim_asset t u : det (z_asset t u).
Proof. unfold z_asset. repeat s3. Qed.
#[local] Hint Resolve sim_asset : sims.
Lemma sim_trader_balances d : det (z_trader_balances d).
Proof. unfold z_trader_balances. repeat s3. Qed.
Lemma sim_trader_out d : det (z_trader_out d).
Proof. unfold z_trader_out. repeat s3. Qed.
Lemma sim_allowance t a s : det (z_allowance t a s).
Proof.
  unfold z_allowance. ahead t YInst Look. eapply sim_bind; [solve [lgz] | intros ?; solve [lgz] | instantiate (1 := eq) | intros x ? <-; repeat s3].
  apply sim_tf. intros w1 w2 r1 w1' W X. unfold tok_allowance in *. apply mbind_ok in X as (w0 & w3 & N & X). inversion N; subst; clear N.
  apply mbind_ok in X as (k & wk & A & X). inversion X; subst; clear X.
  destruct (sim_get_tok F t Fy w3 w2 [] [] k w1' [] W) as (k2 & w2' & G & R & W2); [unfold tf; cbn; rewrite A; reflexivity | intros x [] |].
  unfold tf in G. cbn in G. unfold mbind, mget. destruct (get_tok t w2) as [[x y]|]; [|discriminate].
  inversion G; subst. rewrite (rw_seq _ _ _ W). eexists _, w2'. split; [reflexivity|]. split; [|exact W2].
  unfold tk_read_allowance, tk_allow_entry. rewrite (e_t_allow F _ _ _ R Fy). reflexivity.
Qed.
Lemma sim_vest_token v : sim (x <- z_vest_query v [] ;; instP v ;; mret x) (x <- z_vest_query v [] ;; instP v ;; mret x) (fun a b => v_token a = v_token b).
Proof. s3. s3. apply sim_ret. rws. reflexivity. Qed.
Lemma sim_vest_minter v : det (x <- z_vest_query v [] ;; mlift (of_option (v_minter x) (EContract 3))).
Proof. s3. apply sim_lift_eq. Qed.
Lemma sim_amap {A} (f : A -> Answer) m Q : grow m -> sim m m Q -> (forall a b, Q a b -> f a = f b) -> det (amap f m).
Proof. intros G S E. unfold amap. eapply sim_bind; [exact G | intros ?; solve [lgz] | exact S | intros a b H; apply sim_ret; auto]. Qed.
Lemma sim_zanswer q : det (zanswer q).
Proof.
  destruct q; cbn [zanswer];
    (eapply sim_amap; [solve [lgz] | first [solve [qh] | apply sim_trader_name | apply sim_vest_token | apply sim_vest_minter | solve [auto using sim_allowance, sim_stake_rewards, sim_annualized, sim_withdrawable, sim_distributed, sim_undistributed,
       sim_vest_balance, sim_vest_info, sim_vest_claimable, sim_vest_all, sim_details, sim_all_details, sim_folio, sim_hop_simulate,
       sim_hop_reverse, sim_trader_balances, sim_trader_out with sims] ]
     | let H := fresh "Q" in intros ? ? H; post H; cbn beta; rws; first [reflexivity | congruence] ]).
Qed.
End Calls.
