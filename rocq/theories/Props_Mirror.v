(** The two tokens of a pool are treated alike: C251. *)
From Coq Require Import ZArith List Bool Lia.
From Coq Require Import ZifyBool.
From Verif Require Import Base FMap Decimal DecimalProofs Curve World Token TokenProofs Frame Stake Pool PoolProofs
  Stable StableProofs System SysFrame SysInv SysPool SysStable SysSupply Props_Token Props_Pool Props_Stable Props_Router Props_Guards Props_LiveMisc Props_Effects2.
Import ListNotations.
Open Scope Z_scope.

(** what a quote computes from the reserve of the offered token, that of the other one and the commission *)
Definition quote_of (x y a fee : Z) : ST World SimSwap :=
  r <- mlift (compute_swap x y a (dec_bps fee) 0) ;;
  t1 <- mlift (add_i (cs_ret r) (cs_comm r)) ;;
  tot <- mlift (add_i t1 (cs_spread r)) ;;
  mret (mkSimSwap (cs_ret r) (cs_comm r) (cs_spread r) tot).
Lemma quote_side H w c p o x y b a : reachable H w -> pool_at w c p -> side p o x y b -> pool_simulate_swap c o a w = quote_of x y a (p_fee p) w.
Proof.
  intros R Hp Sd. pose proof (gd_cpool _ (reach_good _ _ R) _ _ Hp) as Hc. unfold pool_at in Hp.
  unfold pool_simulate_swap, quote_of. cbv [mbind enter get_pool mget mguard]. unfold is_code. rewrite Hc. simpl kind_eqb. cbv iota beta. rewrite Hp. cbv iota beta.
  destruct Sd as [[-> [_ [-> ->]]]|[-> [N [_ [-> ->]]]]].
  - rewrite Z.eqb_refl. reflexivity.
  - rewrite Z.eqb_refl, orb_true_r. destruct (Z.eqb_spec (p_tb p) (p_ta p)); [contradiction|]. reflexivity.
Qed.
Lemma quote_world x y a fee w w' r : quote_of x y a fee w = Ok (r, w) -> quote_of x y a fee w' = Ok (r, w').
Proof.
  unfold quote_of, mbind, mlift, mret. destruct (compute_swap _ _ _ _ _) as [k|]; [|discriminate].
  destruct (add_i _ _) as [t|]; [|discriminate]. destruct (add_i t _); [|discriminate]. intros E. inversion E. reflexivity.
Qed.

(** ** C251 *)
(** A quote depends on the two reserves, in the order offered and asked, and on the commission, and on nothing else: not on
    which of the tokens comes first, on the pool, its other settings, the time or anybody's balance. *)
Theorem C251_quotes_do_not_see_the_order H w c p o b H' w' c' p' o' b' x y a r :
  reachable H w -> pool_at w c p -> side p o x y b -> reachable H' w' -> pool_at w' c' p' -> side p' o' x y b' -> p_fee p' = p_fee p ->
  pool_simulate_swap c o a w = Ok (r, w) -> pool_simulate_swap c' o' a w' = Ok (r, w').
Proof.
  intros R Hp Sd R' Hp' Sd' Ef X. rewrite (quote_side _ _ _ _ _ _ _ _ _ R Hp Sd) in X. rewrite (quote_side _ _ _ _ _ _ _ _ _ R' Hp' Sd'), Ef.
  eapply quote_world; eauto.
Qed.
Print Assumptions C251_quotes_do_not_see_the_order.

(** So does what a swap pays, and what it leaves in the reserves. *)
Theorem C251_swaps_do_not_see_the_order H w c p o b H' w' c' p' o' b' x y a e u mi ms dl mf r w1 e' u' mi' ms' dl' mf' r' w1' :
  reachable H w -> pool_at w c p -> side p o x y b -> reachable H' w' -> pool_at w' c' p' -> side p' o' x y b' -> p_fee p' = p_fee p ->
  pool_swap e None c u o a mi ms dl mf w = Ok (r, w1) -> pool_swap e' None c' u' o' a mi' ms' dl' mf' w' = Ok (r', w1') ->
  r' = r /\ exists q q' x1 y1, pool_at w1 c q /\ pool_at w1' c' q' /\ side q o x1 y1 b /\ side q' o' x1 y1 b'.
Proof.
  intros R Hp Sd R' Hp' Sd' Ef X X'.
  assert (U : u <> c).
  { pose proof (gd_cpool _ (reach_good _ _ R) _ _ Hp) as Hc. apply pool_swap_ok in X. destruct X as [_ [Au _]].
    eapply (sender_not_self H w e None c); [exact R|exact Hc|discriminate|exact Au]. }
  assert (U' : u' <> c').
  { pose proof (gd_cpool _ (reach_good _ _ R') _ _ Hp') as Hc. apply pool_swap_ok in X'. destruct X' as [_ [Au _]].
    eapply (sender_not_self H' w' e' None c'); [exact R'|exact Hc|discriminate|exact Au]. }
  destruct (swap_facts _ _ _ _ _ _ _ _ _ _ _ _ _ U X) as [p0 [p1 [x0 [y0 [g [fee [sp [b0 F]]]]]]]].
  destruct (swap_facts _ _ _ _ _ _ _ _ _ _ _ _ _ U' X') as [p0' [p1' [x0' [y0' [g' [fee' [sp' [b0' F']]]]]]]].
  pose proof (sf_before F) as B. pose proof (sf_before F') as B'. unfold pool_at in *. rewrite Hp in B. rewrite Hp' in B'.
  inversion B; subst p0. inversion B'; subst p0'.
  destruct (side_eq _ _ _ _ _ Sd) as [S1 [S2 S3]]. destruct (side_eq _ _ _ _ _ (sf_side F)) as [T1 [T2 T3]].
  destruct (side_eq _ _ _ _ _ Sd') as [S1' [S2' S3']]. destruct (side_eq _ _ _ _ _ (sf_side F')) as [T1' [T2' T3']].
  assert (x0 = x) by congruence. assert (y0 = y) by congruence. assert (b0 = b) by congruence.
  assert (x0' = x) by congruence. assert (y0' = y) by congruence. assert (b0' = b') by congruence. subst x0 y0 b0 x0' y0' b0'.
  pose proof (sf_product F) as P1. pose proof (sf_product F') as P2. pose proof (sf_pos F) as Q.
  assert (g' = g).
  { assert (g' < g + 1 /\ g < g' + 1); [|lia].
    split; apply Z.nle_gt; intros L.
    - assert ((x + a) * (y - g') <= (x + a) * (y - (g + 1))) by (apply Z.mul_le_mono_nonneg_l; lia). lia.
    - assert ((x + a) * (y - g) <= (x + a) * (y - (g' + 1))) by (apply Z.mul_le_mono_nonneg_l; lia). lia. }
  subst g'. assert (fee' = fee) by (rewrite (sf_fee F), (sf_fee F'), Ef; reflexivity). subst fee'.
  split; [pose proof (sf_gross F); pose proof (sf_gross F'); lia|].
  exists p1, p1', (x + a), (y - g). split; [apply (sf_after F)|]. split; [apply (sf_after F')|].
  split; [rewrite S1, S2, S3; apply (sf_side' F)|rewrite S1', S2', S3'; apply (sf_side' F')].
Qed.
Print Assumptions C251_swaps_do_not_see_the_order.

(** two pools with the same shares, the reserves of one being those of the other exchanged *)
Definition mirror (p q : Pool) : Prop := p_ra q = p_rb p /\ p_rb q = p_ra p /\ p_total q = p_total p.

(** The same deposit and the same withdrawal leave such pools mirrored. *)
Theorem C251_deposits_do_not_see_the_order H w c p H' w' c' p' e u da mina db minb cu dl w1 e' u' mina' minb' cu' dl' w1' :
  reachable H w -> pool_at w c p -> reachable H' w' -> pool_at w' c' p' -> mirror p p' ->
  bal w' (p_ta p') c' = bal w (p_tb p) c -> bal w' (p_tb p') c' = bal w (p_ta p) c ->
  pool_provide e None c u da mina db minb cu dl w = Ok (tt, w1) -> pool_provide e' None c' u' db mina' da minb' cu' dl' w' = Ok (tt, w1') ->
  exists q q', pool_at w1 c q /\ pool_at w1' c' q' /\ mirror q q'.
Proof.
  intros R Hp R' Hp' [M1 [M2 M3]] Ba Bb X X'.
  destruct (C153_deposit_effect _ _ _ _ _ _ _ _ _ _ _ _ _ R Hp X) as [xa [xb [a [b [n [lk [Ea [Eb [F0 [F1 [E _]]]]]]]]]]].
  destruct (C153_deposit_effect _ _ _ _ _ _ _ _ _ _ _ _ _ R' Hp' X') as [xa' [xb' [a' [b' [n' [lk' [Ea' [Eb' [F0' [F1' [E' _]]]]]]]]]]].
  rewrite Ea in Eb'. rewrite Eb in Ea'. inversion Ea'. inversion Eb'. subst xa' xb'. clear Ea' Eb'.
  rewrite M1, M2, M3 in *. eexists _, _. split; [exact E|]. split; [exact E'|]. unfold mirror. simpl. rewrite Ba, Bb in *.
  destruct (Z.eq_dec (p_total p) 0) as [Z0|NZ].
  - destruct (F0 Z0) as [-> [-> [-> _]]]. destruct (F0' Z0) as [-> [-> [-> _]]]. rewrite (Z.mul_comm xb xa). repeat split.
  - destruct (F1 NZ) as [-> [-> [_ ->]]]. destruct (F1' NZ) as [-> [-> [_ ->]]]. split; [reflexivity|]. split; [reflexivity|]. apply Z.min_comm.
Qed.
Print Assumptions C251_deposits_do_not_see_the_order.

Theorem C251_withdrawals_do_not_see_the_order H w c p H' w' c' p' e u s m1 m2 dl a b w1 e' u' m1' m2' dl' a' b' w1' :
  reachable H w -> pool_at w c p -> reachable H' w' -> pool_at w' c' p' -> mirror p p' ->
  pool_withdraw e None c u s m1 m2 dl w = Ok ((a, b), w1) -> pool_withdraw e' None c' u' s m1' m2' dl' w' = Ok ((a', b'), w1') ->
  a' = b /\ b' = a /\ exists q q', pool_at w1 c q /\ pool_at w1' c' q' /\ mirror q q'.
Proof.
  intros R Hp R' Hp' [M1 [M2 M3]] X X'.
  destruct (C153_withdrawal_effect _ _ _ _ _ _ _ _ _ _ _ _ _ R Hp X) as [A [B [E _]]].
  destruct (C153_withdrawal_effect _ _ _ _ _ _ _ _ _ _ _ _ _ R' Hp' X') as [A' [B' [E' _]]].
  rewrite M1, M2, M3 in *. assert (a' = b) by congruence. assert (b' = a) by congruence. split; [auto|]. split; [auto|].
  eexists _, _. split; [exact E|]. split; [exact E'|]. unfold mirror. simpl. lia.
Qed.
Print Assumptions C251_withdrawals_do_not_see_the_order.

(** ** Stable pools *)
Definition squote_of (t : Z) (p : Stable) (x y px py a : Z) : ST World SimSwap :=
  us <- mlift (i2u x) ;;
  ub <- mlift (i2u y) ;;
  ux <- mlift (i2u a) ;;
  amp <- mlift (amp_of p t) ;;
  ' (ret, spread, comm) <- mlift (stable_compute_swap amp (l_prec p) us px ub py ux (dec_bps (l_fee p))) ;;
  t1 <- mlift (add_i ret comm) ;;
  tot <- mlift (add_i t1 spread) ;;
  mret (mkSimSwap ret comm spread tot).
Definition dec_first (p : Stable) (o : Addr) : Z := if o =? l_ta p then l_preca p else l_precb p.
Definition dec_second (p : Stable) (o : Addr) : Z := if o =? l_ta p then l_precb p else l_preca p.
Lemma squote_side H w c p o x y b a : reachable H w -> stable_at w c p -> lside p o x y b ->
  stable_simulate_swap c o a w = squote_of (w_now w) p x y (dec_first p o) (dec_second p o) a w.
Proof.
  intros R Hp Sd. pose proof (gd_cstable _ (reach_good _ _ R) _ _ Hp) as Hc. unfold stable_at in Hp.
  unfold stable_simulate_swap, squote_of, dec_first, dec_second. cbv [mbind enter get_stable mget mguard now mgets]. unfold is_code. rewrite Hc. simpl kind_eqb. cbv iota beta. rewrite Hp. cbv iota beta.
  destruct Sd as [[-> [_ [-> ->]]]|[-> [N [_ [-> ->]]]]].
  - rewrite Z.eqb_refl. reflexivity.
  - rewrite Z.eqb_refl, orb_true_r. destruct (Z.eqb_spec (l_tb p) (l_ta p)); [contradiction|]. reflexivity.
Qed.
(** A stable quote depends on the reserves, the decimals of the offered and the asked token, the amplification and the
    commission alone. *)
Theorem C251_stable_quotes_do_not_see_the_order H w c p o b H' w' c' p' o' b' x y a r :
  reachable H w -> stable_at w c p -> lside p o x y b -> reachable H' w' -> stable_at w' c' p' -> lside p' o' x y b' ->
  l_fee p' = l_fee p -> l_prec p' = l_prec p -> amp_of p' (w_now w') = amp_of p (w_now w) ->
  dec_first p' o' = dec_first p o -> dec_second p' o' = dec_second p o ->
  stable_simulate_swap c o a w = Ok (r, w) -> stable_simulate_swap c' o' a w' = Ok (r, w').
Proof.
  intros R Hp Sd R' Hp' Sd' E1 E2 E3 E4 E5 X. rewrite (squote_side _ _ _ _ _ _ _ _ _ R Hp Sd) in X.
  rewrite (squote_side _ _ _ _ _ _ _ _ _ R' Hp' Sd'), E4, E5.
  unfold squote_of in *. rewrite E1, E2, E3. revert X. unfold mbind, mlift, mret.
  destruct (i2u x); [|discriminate]. destruct (i2u y); [|discriminate]. destruct (i2u a); [|discriminate].
  destruct (amp_of p (w_now w)); [|discriminate]. destruct (stable_compute_swap _ _ _ _ _ _ _ _) as [[[k1 k2] k3]|]; [|discriminate].
  destruct (add_i _ _) as [t0|]; [|discriminate]. destruct (add_i t0 _); [|discriminate]. intros E. inversion E. reflexivity.
Qed.
Print Assumptions C251_stable_quotes_do_not_see_the_order.

(** So does what a stable swap pays, and what it leaves in the reserves. *)
Theorem C251_stable_swaps_do_not_see_the_order H w c p o b H' w' c' p' o' b' x y a e u mi ms dl mf r w1 e' u' mi' ms' dl' mf' r' w1' :
  reachable H w -> stable_at w c p -> lside p o x y b -> reachable H' w' -> stable_at w' c' p' -> lside p' o' x y b' ->
  l_fee p' = l_fee p -> l_prec p' = l_prec p -> amp_of p' (w_now w') = amp_of p (w_now w) ->
  dec_first p' o' = dec_first p o -> dec_second p' o' = dec_second p o ->
  stable_swap e None c u o a mi ms dl mf w = Ok (r, w1) -> stable_swap e' None c' u' o' a mi' ms' dl' mf' w' = Ok (r', w1') ->
  r' = r /\ exists q q' x1 y1, stable_at w1 c q /\ stable_at w1' c' q' /\ lside q o x1 y1 b /\ lside q' o' x1 y1 b'.
Proof.
  intros R Hp Sd R' Hp' Sd' E1 E2 E3 E4 E5 X X'.
  assert (N : None <> Some c) by discriminate. assert (N' : None <> Some c') by discriminate.
  destruct (C31_swap_implies_quote _ _ _ _ _ _ _ _ _ _ _ _ _ _ R N X) as [k [K _]].
  pose proof (C251_stable_quotes_do_not_see_the_order _ _ _ _ _ _ _ _ _ _ _ _ _ _ _ _ R Hp Sd R' Hp' Sd' E1 E2 E3 E4 E5 K) as K'.
  destruct (C31_stable_quote_is_execution _ _ _ _ _ _ _ R K) as [_ [_ F]].
  destruct (C31_stable_quote_is_execution _ _ _ _ _ _ _ R' K') as [_ [_ F']].
  destruct (F _ _ _ _ _ _ _ _ _ N X) as [-> [p0 [q [x0 [y0 [b0 [Ep [Eq [S [T _]]]]]]]]]].
  destruct (F' _ _ _ _ _ _ _ _ _ N' X') as [-> [p0' [q' [x0' [y0' [b0' [Ep' [Eq' [S' [T' _]]]]]]]]]].
  split; [reflexivity|]. unfold stable_at in *. rewrite Hp in Ep. rewrite Hp' in Ep'. inversion Ep; subst p0. inversion Ep'; subst p0'.
  destruct (lside_eq _ _ _ _ _ Sd) as [S1 [S2 S3]]. destruct (lside_eq _ _ _ _ _ S) as [T1 [T2 T3]].
  destruct (lside_eq _ _ _ _ _ Sd') as [S1' [S2' S3']]. destruct (lside_eq _ _ _ _ _ S') as [T1' [T2' T3']].
  assert (x0 = x) by congruence. assert (y0 = y) by congruence. assert (b0 = b) by congruence.
  assert (x0' = x) by congruence. assert (y0' = y) by congruence. assert (b0' = b') by congruence. subst x0 y0 b0 x0' y0' b0'.
  exists q, q', (x + a), (y - (ss_ask k + ss_comm k)). split; [exact Eq|]. split; [exact Eq'|]. split; [rewrite S1, S2, S3; exact T|rewrite S1', S2', S3'; exact T'].
Qed.
Print Assumptions C251_stable_swaps_do_not_see_the_order.

(** two stable pools with the same shares and amplification, reserves and decimals of one being those of the other exchanged *)
Definition smirror (p q : Stable) : Prop :=
  l_ra q = l_rb p /\ l_rb q = l_ra p /\ l_total q = l_total p /\
  l_preca q = l_precb p /\ l_precb q = l_preca p /\ l_prec q = l_prec p /\ l_namp q = l_namp p.

Lemma invariant_sym amp a b da db d : invariant_of amp a b da db = Ok d -> invariant_of amp b a db da = Ok d.
Proof.
  unfold invariant_of. destruct (scale_value a da _) as [x|]; [|discriminate]. destruct (scale_value b db _) as [y|]; [|discriminate]. simpl.
  apply compute_d_sym.
Qed.
Lemma shares_sym p q amp d da db s : smirror p q -> stable_shares p amp d da db = Ok s -> stable_shares q amp d db da = Ok s.
Proof.
  intros [M1 [M2 [M3 [_ [_ [M4 _]]]]]]. unfold stable_shares. rewrite M1, M2, M3, M4. destruct (l_total p =? 0); [auto|].
  intros X. destruct (i2u (l_ra p)) as [x|]; [|discriminate X]. destruct (i2u (l_rb p)) as [y|]; [|discriminate X]. cbv beta iota delta [rbind] in X |- *.
  destruct (invariant_of amp x y da db) as [d0|] eqn:E; [|discriminate X]. rewrite (invariant_sym _ _ _ _ _ _ E). auto.
Qed.

Theorem C251_stable_deposits_do_not_see_the_order H w c p H' w' c' p' e u da db cu dl ms w1 e' u' cu' dl' ms' w1' :
  reachable H w -> stable_at w c p -> reachable H' w' -> stable_at w' c' p' -> smirror p p' ->
  bal w' (l_ta p') c' = bal w (l_tb p) c -> bal w' (l_tb p') c' = bal w (l_ta p) c ->
  stable_provide e None c u da db cu dl ms w = Ok (tt, w1) -> stable_provide e' None c' u' db da cu' dl' ms' w' = Ok (tt, w1') ->
  exists q q', stable_at w1 c q /\ stable_at w1' c' q' /\ smirror q q'.
Proof.
  intros R Hp R' Hp' M Ba Bb X X'.
  assert (Q : forall H w c p e u da db cu dl ms w1, reachable H w -> stable_at w c p -> stable_provide e None c u da db cu dl ms w = Ok (tt, w1) ->
    exists d s, invariant_of (l_namp p) (l_ra p + da) (l_rb p + db) (l_preca p) (l_precb p) = Ok d /\
      stable_shares p (l_namp p) d (l_preca p) (l_precb p) = Ok s /\
      stable_at w1 c (set_l_res (set_l_total p (l_total p + s)) (bal w (l_ta p) c + da) (bal w (l_tb p) c + db))).
  { clear. intros H w c p e u da db cu dl ms w1 R Hp X. pose proof (reach_good _ _ R) as G. pose proof (reach_stable _ _ R _ _ Hp) as I.
    pose proof (li_ord _ _ _ I) as Od. pose proof (gd_cstable _ G _ _ Hp) as Hc. unfold stable_at in *.
    destruct (C150_stable_deposit_effect _ _ _ _ _ R Hp _ _ _ _ _ _ _ X) as [m [_ [D _]]].
    assert (Ns : u <> c).
    { assert (Au : authed e None u = true). { pose proof X as X0. unfold stable_provide in X0. rstep X0. winv. assumption. }
      eapply (sender_not_self H w e None c); [exact R|exact Hc|discriminate|exact Au]. }
    destruct (stable_provide_ok _ _ _ _ _ _ _ _ _ _ _ _ X Ns) as [_ [_ [p0 [amp [deca [decb [nd [s [v1 [v2 [v3 F]]]]]]]]]]].
    { intros q Eq. rewrite Hp in Eq. inversion Eq; subst q. lia. }
    pose proof (lp_pool _ _ _ _ _ _ _ _ _ _ _ _ _ _ _ _ _ _ F) as P. rewrite Hp in P. inversion P; subst p0.
    pose proof (lp_amp _ _ _ _ _ _ _ _ _ _ _ _ _ _ _ _ _ _ F) as A. rewrite (amp_reached _ _ _ _ R Hp) in A. inversion A; subst amp.
    destruct (li_dec _ _ _ I) as [Q1 [Q2 _]].
    pose proof (lp_deca _ _ _ _ _ _ _ _ _ _ _ _ _ _ _ _ _ _ F) as Da. pose proof (lp_decb _ _ _ _ _ _ _ _ _ _ _ _ _ _ _ _ _ _ F) as Db.
    rewrite Q1 in Da. rewrite Q2 in Db. inversion Da; subst deca. inversion Db; subst decb.
    exists nd, s. split; [apply (lp_newd _ _ _ _ _ _ _ _ _ _ _ _ _ _ _ _ _ _ F)|]. split; [apply (lp_shares _ _ _ _ _ _ _ _ _ _ _ _ _ _ _ _ _ _ F)|].
    pose proof (lp_pool' _ _ _ _ _ _ _ _ _ _ _ _ _ _ _ _ _ _ F) as E. rewrite D in E. rewrite D.
    assert (Em := f_equal (fun o => match o with Some q => l_total q | None => 0 end) E). simpl in Em. rewrite Em. reflexivity. }
  destruct (Q _ _ _ _ _ _ _ _ _ _ _ _ R Hp X) as [d [s [V [S E]]]].
  destruct (Q _ _ _ _ _ _ _ _ _ _ _ _ R' Hp' X') as [d' [s' [V' [S' E']]]].
  pose proof M as [M1 [M2 [M3 [M4 [M5 [M6 M7]]]]]].
  pose proof (invariant_sym _ _ _ _ _ _ V) as V2. pose proof (shares_sym _ _ _ _ _ _ _ M S) as S2.
  rewrite M1, M2, M4, M5, M7, V2 in V'. inversion V'; subst d'. rewrite M4, M5, M7, S2 in S'. inversion S'; subst s'.
  eexists _, _. split; [exact E|]. split; [exact E'|]. unfold smirror. simpl. rewrite Ba, Bb, M3, M4, M5, M6, M7. repeat split.
Qed.
Print Assumptions C251_stable_deposits_do_not_see_the_order.

Theorem C251_stable_withdrawals_do_not_see_the_order H w c p H' w' c' p' e u s m1 m2 dl a b w1 e' u' m1' m2' dl' a' b' w1' :
  reachable H w -> stable_at w c p -> reachable H' w' -> stable_at w' c' p' -> smirror p p' ->
  stable_withdraw e None c u s m1 m2 dl w = Ok ((a, b), w1) -> stable_withdraw e' None c' u' s m1' m2' dl' w' = Ok ((a', b'), w1') ->
  a' = b /\ b' = a /\ exists q q', stable_at w1 c q /\ stable_at w1' c' q' /\ smirror q q'.
Proof.
  intros R Hp R' Hp' [M1 [M2 [M3 [M4 [M5 [M6 M7]]]]]] X X'.
  destruct (C153_stable_withdrawal_effect _ _ _ _ _ _ _ _ _ _ _ _ _ R Hp X) as [A [B [[q [E [T [Ra [Rb K]]]]] _]]].
  destruct (C153_stable_withdrawal_effect _ _ _ _ _ _ _ _ _ _ _ _ _ R' Hp' X') as [A' [B' [[q' [E' [T' [Ra' [Rb' K']]]]] _]]].
  rewrite M3 in A', B'. rewrite M1 in A'. rewrite M2 in B'.
  assert (a' = b) by congruence. assert (b' = a) by congruence. split; [auto|]. split; [auto|].
  exists q, q'. split; [exact E|]. split; [exact E'|].
  assert (J : forall x y : Stable, x = set_l_res (set_l_total y (l_total x)) (l_ra x) (l_rb x) ->
    l_preca y = l_preca x /\ l_precb y = l_precb x /\ l_prec y = l_prec x /\ l_namp y = l_namp x).
  { clear. intros x y Z. rewrite Z. simpl. auto. }
  destruct (J _ _ K) as [K1 [K2 [K3 K4]]]. destruct (J _ _ K') as [K1' [K2' [K3' K4']]].
  unfold smirror. rewrite K1, K2, K3, K4, K1', K2', K3', K4', T, T', Ra, Rb, Ra', Rb'. repeat split; congruence.
Qed.
Print Assumptions C251_stable_withdrawals_do_not_see_the_order.

(** ** Concrete cases are in Props_MirrorCases. *)
