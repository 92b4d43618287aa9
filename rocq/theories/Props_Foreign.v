(** Pools of foreign tokens (C139) and of tokens with a fee on transfer (C140). *)
From Coq Require Import ZArith List Bool Lia.
From Coq Require Import ZifyBool.
From Verif Require Import Base FMap Decimal DecimalProofs World Token TokenProofs Frame Pool PoolProofs Foreign
  Stake Stable Rewards Vest Factory Router System Script Props_Token Props_Pool Props_PoolCases.
Import ListNotations.
Open Scope Z_scope.

(** with the repository's transfer these are the functions of Pool.v *)
Lemma swap_with_own : pool_swap_with tok_transfer = pool_swap. Proof. reflexivity. Qed.
Lemma provide_with_own : pool_provide_with tok_transfer = pool_provide. Proof. reflexivity. Qed.
Lemma withdraw_with_own : pool_withdraw_with tok_transfer = pool_withdraw. Proof. reflexivity. Qed.

(** What the pool at [self] needs of the tokens: a transfer called by the pool changes nothing but token
    balances, leaves the pool's balances of other tokens alone, and takes from the pool at most the
    amount asked for.  Nothing is said about what arrives at the receiver. *)
Definition fair_for (self : Addr) (tr : Transfer) : Prop := forall e t from to amt w w',
  tr e (Some self) t from to amt w = Ok (tt, w') ->
  w' = set_tok w (w_tok w') /\ (forall x, x <> t -> bal w' x self = bal w x self) /\
  (from = self -> 0 <= amt -> bal w t self - amt <= bal w' t self).

Definition covered (w : World) (self : Addr) (p : Pool) : Prop :=
  p_ra p <= bal w (p_ta p) self /\ p_rb p <= bal w (p_tb p) self.
Definition same_tokens (p p' : Pool) : Prop := p_ta p' = p_ta p /\ p_tb p' = p_tb p /\ p_share p' = p_share p.

Lemma fair_own self : fair_for self tok_transfer.
Proof.
  intros e t from to amt w w' X. apply tok_transfer_moved in X. destruct X as [_ M]. split; [apply M|].
  split; [intros x N; rewrite (mv_bal _ _ _ _ _ _ M); destruct (Z.eqb_spec x t); [contradiction|]; cbn [andb]; unfold ind; lia|].
  intros -> P. rewrite (mv_bal _ _ _ _ _ _ M), !Z.eqb_refl. cbn [andb]. unfold ind. destruct (self =? to); lia.
Qed.

Lemma taxed_ok tax sink e c t from to amt w u w' : taxed tax sink e c t from to amt w = Ok (u, w') ->
  exists w1, Moved t from to amt w w1 /\ Moved t to sink (tax t amt) w1 w'.
Proof.
  unfold taxed. intros X. apply mbind_ok in X. destruct X as [[] [w1 [X1 X2]]].
  apply tok_transfer_moved in X1. apply tok_transfer_moved in X2. exists w1. tauto.
Qed.
Lemma fair_taxed tax sink self : sink <> self -> (forall t a, 0 <= a -> tax t a <= a) -> fair_for self (taxed tax sink).
Proof.
  intros N L e t from to amt w w' X. apply taxed_ok in X. destruct X as [w1 [M1 M2]].
  split; [rewrite (mv_rest _ _ _ _ _ _ M2), (mv_rest _ _ _ _ _ _ M1); reflexivity|].
  split.
  - intros x Nx. rewrite (mv_bal _ _ _ _ _ _ M2), (mv_bal _ _ _ _ _ _ M1). destruct (Z.eqb_spec x t); [contradiction|]. cbn [andb]. unfold ind. lia.
  - intros -> P. pose proof (L t amt P). pose proof (mv_pos _ _ _ _ _ _ M2).
    rewrite (mv_bal _ _ _ _ _ _ M2), (mv_bal _ _ _ _ _ _ M1), !Z.eqb_refl. cbn [andb].
    destruct (Z.eqb_spec self sink); [congruence|]. unfold ind. destruct (self =? to); lia.
Qed.

(** ** What a swap does *)
Record SwapWith (tr : Transfer) (e : Env) (self sender offer amt : Z) (w w' : World) (ret : Z)
    (p : Pool) (r : Computed) (w1 w2 w3 : World) : Prop := {
  fw_pool : fget self (w_pool w) = Some p;
  fw_offer : offer = p_ta p \/ offer = p_tb p;
  fw_nums : SwapNums (res_of p offer) (res_other p offer) amt (dec_bps (p_fee p)) r;
  fw_ret : ret = cs_ret r;
  fw_in : tr e (Some self) offer sender self amt w = Ok (tt, w1);
  fw_out : tr e (Some self) (buy_of p offer) self sender ret w1 = Ok (tt, w2);
  fw_com : tr e (Some self) (buy_of p offer) self (p_feerec p) (cs_comm r) w2 = Ok (tt, w3);
  fw_end : w' = set_pool w3 (fset self (set_res_for p offer (res_of p offer + (bal w1 offer self - bal w offer self))
             (res_other p offer - (cs_ret r + cs_comm r))) (w_pool w3)) }.
Lemma do_swap_with_ok tr e self sender offer amt mi ms mf w w' ret :
  do_swap_with tr e self sender offer amt mi ms mf w = Ok (ret, w') ->
  exists p r w1 w2 w3, SwapWith tr e self sender offer amt w w' ret p r w1 w2 w3.
Proof.
  unfold do_swap_with. intros H.
  apply mbind_ok in H. destruct H as [p [w0 [H0 H]]].
  apply get_pool_ok in H0. destruct H0 as [Hp ->].
  rstep H.
  match goal with G : (offer =? _) || _ = true |- _ => rename G into Ho end.
  remember (offer =? p_ta p) as isa eqn:Ei.
  assert (E1 : (if isa then (p_ra p, p_rb p) else (p_rb p, p_ra p)) = (res_of p offer, res_other p offer)).
  { unfold res_of, res_other. rewrite <- Ei. destruct isa; reflexivity. }
  assert (Eo : offer = p_ta p \/ offer = p_tb p) by (destruct isa; lia).
  assert (E2 : (if isa then (p_ta p, p_tb p) else (p_tb p, p_ta p)) = (offer, buy_of p offer)).
  { unfold buy_of. rewrite <- Ei. destruct isa; f_equal; lia. }
  match goal with R : _ = Ok (ret, w') |- _ => rename R into H end.
  rewrite E1 in H.
  apply mbind_ok in H. destruct H as [r [wr [Hc H]]]. apply mlift_ok in Hc. destruct Hc as [r' [Hc Er]].
  inversion Er; subst r' wr; clear Er.
  pose proof (compute_swap_ok _ _ _ _ _ Hc) as SN.
  rstep H.
  match goal with R : _ = Ok (ret, w') |- _ => rename R into H end.
  rewrite E2 in H. cbv beta iota zeta in H. rstep H. tinv. winv.
  repeat match goal with u : unit |- _ => destruct u end.
  match goal with R : tr e (Some self) offer sender self amt _ = Ok (tt, ?wx) |- _ => rename R into M1; rename wx into W1 end.
  match goal with R : tr e (Some self) (buy_of p offer) self sender _ _ = Ok (tt, ?wx) |- _ => rename R into M2; rename wx into W2 end.
  match goal with R : tr e (Some self) (buy_of p offer) self (p_feerec p) _ _ = Ok (tt, ?wx) |- _ => rename R into M3; rename wx into W3 end.
  exists p, r, W1, W2, W3. constructor; auto.
  unfold set_res_for. rewrite (sn_ref _ _ _ _ _ SN).
  replace (res_other p offer - cs_comm r - 0 - cs_ret r) with (res_other p offer - (cs_ret r + cs_comm r)) by lia. reflexivity.
Qed.

(** ** C139: swaps, deposits and withdrawals of a pool with such tokens keep the pool solvent *)
Theorem C139_foreign_swap_solvent tr e c self sender offer amt mi ms dl mf w ret w' p :
  fair_for self tr -> pool_at w self p -> p_ta p <> p_tb p -> covered w self p ->
  pool_swap_with tr e c self sender offer amt mi ms dl mf w = Ok (ret, w') ->
  exists p', pool_at w' self p' /\ same_tokens p p' /\ covered w' self p' /\ p_total p' = p_total p.
Proof.
  intros F Hp Nt [Ca Cb] X. unfold pool_swap_with in X. rstep X. winv.
  match goal with R : do_swap_with _ _ _ _ _ _ _ _ _ _ = _ |- _ => apply do_swap_with_ok in R; destruct R as [p0 [r [w1 [w2 [w3 D]]]]] end.
  destruct D as [D1 D2 D3 D4 D5 D6 D7 D8]. unfold pool_at in *. rewrite Hp in D1. inversion D1; subst p0. clear D1.
  destruct (F _ _ _ _ _ _ _ D5) as [A1 [A2 _]]. destruct (F _ _ _ _ _ _ _ D6) as [B1 [B2 B3]]. destruct (F _ _ _ _ _ _ _ D7) as [C1 [C2 C3]].
  specialize (B3 eq_refl). specialize (C3 eq_refl). pose proof (sn_ret _ _ _ _ _ D3). pose proof (sn_comm_pos _ _ _ _ _ D3).
  specialize (B3 ltac:(lia)). specialize (C3 ltac:(lia)).
  subst w'. simpl. rewrite fget_set_same. eexists. split; [reflexivity|].
  unfold set_res_for, res_of, res_other, buy_of in *. unfold covered, same_tokens.
  change (bal (set_pool w3 _)) with (bal w3).
  destruct (Z.eqb_spec offer (p_ta p)) as [->|No]; cbn [set_p_res p_ta p_tb p_share p_ra p_rb p_total].
  - specialize (A2 (p_tb p) ltac:(auto)). specialize (B2 (p_ta p) ltac:(auto)). specialize (C2 (p_ta p) ltac:(auto)).
    repeat split; lia.
  - destruct D2 as [|D2]; [contradiction|]. subst offer.
    specialize (A2 (p_ta p) ltac:(auto)). specialize (B2 (p_tb p) ltac:(auto)). specialize (C2 (p_tb p) ltac:(auto)).
    repeat split; lia.
Qed.
Print Assumptions C139_foreign_swap_solvent.

Theorem C139_foreign_withdrawal_solvent tr e c self sender share mina minb dl w a b w' p :
  fair_for self tr -> pool_at w self p -> p_ta p <> p_tb p -> p_share p <> p_ta p -> p_share p <> p_tb p ->
  covered w self p -> 0 <= p_ra p -> 0 <= p_rb p -> 0 < p_total p ->
  pool_withdraw_with tr e c self sender share mina minb dl w = Ok ((a, b), w') ->
  0 < a /\ p_total p * a <= p_ra p * share /\ 0 < b /\ p_total p * b <= p_rb p * share /\
  exists p', pool_at w' self p' /\ same_tokens p p' /\ covered w' self p' /\
    p_total p' = p_total p - share /\ p_ra p' = p_ra p - a /\ p_rb p' = p_rb p - b.
Proof.
  intros F Hp Nt Na Nb [Ca Cb] Pa Pb Pt X. unfold pool_withdraw_with in X. rstep X. winv. tinv. destr_pair.
  repeat match goal with u : unit |- _ => destruct u end.
  match goal with R : fget self (w_pool w) = Some ?q |- _ => unfold pool_at in Hp; rewrite Hp in R; inversion R; subst q; clear R end.
  match goal with R : Moved (p_share p) _ _ _ _ ?wx |- _ => rename R into M1; rename wx into W1 end.
  match goal with R : burn_shares _ _ _ _ = Ok (_, ?wx) |- _ => apply burn_shares_ok in R;
    destruct R as [p3 [W2 [Ep3 [Bn [Eend Etok]]]]]; rename wx into W2' end.
  rewrite (mv_pool _ _ _ _ _ _ M1), Hp in Ep3. inversion Ep3; subst p3; clear Ep3.
  match goal with R : tr _ _ (p_ta p) _ _ _ _ = Ok (_, ?wx) |- _ => rename R into X3; rename wx into W3 end.
  match goal with R : tr _ _ (p_tb p) _ _ _ _ = Ok (_, ?wx) |- _ => rename R into X4; rename wx into W4 end.
  match goal with R : fget self (w_pool W4) = Some _ |- _ => rename R into Hp4 end.
  match goal with R : dec_from_ratio _ _ = Ok _ |- _ => apply dec_from_ratio_pos in R; [destruct R as [Qa [_ Qb]]|cbn [vpos] in *; lia|exact Pt] end.
  repeat match goal with R : i_mul_dec _ _ = Ok _ |- _ => apply i_mul_dec_pos in R; [|lia|lia]; destruct R as [? [_ ?]] end.
  cbn [vpos] in *. unfold DEC in *.
  split; [lia|]. split; [nia|]. split; [lia|]. split; [nia|].
  destruct (F _ _ _ _ _ _ _ X3) as [A1 [A2 A3]]. destruct (F _ _ _ _ _ _ _ X4) as [B1 [B2 B3]].
  specialize (A3 eq_refl ltac:(lia)). specialize (B3 eq_refl ltac:(lia)).
  rewrite B1 in Hp4. cbn [set_tok w_pool] in Hp4. rewrite A1 in Hp4. cbn [set_tok w_pool] in Hp4. rewrite Eend in Hp4. inversion Hp4; subst; clear Hp4.
  specialize (A2 (p_tb p) ltac:(auto)). specialize (B2 (p_ta p) ltac:(auto)).
  assert (E0 : forall x, x <> p_share p -> bal W2' x self = bal w x self).
  { intros x Nx. rewrite (bal_wtok W2 W2') by auto. rewrite (bn_bal _ _ _ _ _ Bn), (mv_bal _ _ _ _ _ _ M1).
    destruct (Z.eqb_spec x (p_share p)); [contradiction|]. cbn [andb]. unfold ind. lia. }
  rewrite !E0 in * by auto.
  eexists. split; [unfold pool_at; simpl; apply fget_set_same|]. unfold same_tokens, covered.
  cbn [set_p_res set_p_total p_ta p_tb p_share p_ra p_rb p_total]. change (bal (set_pool W4 _)) with (bal W4).
  repeat split; lia.
Qed.
Print Assumptions C139_foreign_withdrawal_solvent.

(** After a deposit the reserves are the balances, whatever arrived; and the shares are minted for what
    arrived, so that the reserves per share do not fall. *)
Theorem C139_foreign_deposit_solvent tr e c self sender da mina db minb custom dl w w' p :
  fair_for self tr -> pool_at w self p -> p_share p <> p_ta p -> p_share p <> p_tb p ->
  pool_provide_with tr e c self sender da mina db minb custom dl w = Ok (tt, w') ->
  exists p', pool_at w' self p' /\ same_tokens p p' /\
    p_ra p' = bal w' (p_ta p) self /\ p_rb p' = bal w' (p_tb p) self /\
    (0 < p_ra p -> 0 < p_rb p -> 0 <= p_total p -> 0 <= bal w' (p_ta p) self -> 0 <= bal w' (p_tb p) self ->
       p_total p <= p_total p' /\ p_ra p * p_total p' <= p_ra p' * p_total p /\ p_rb p * p_total p' <= p_rb p' * p_total p).
Proof.
  intros F Hp Na Nb X. unfold pool_provide_with in X. rstep X. winv.
  match goal with x : (Z * Z)%type |- _ => destruct x as [a b] end.
  match goal with R : _ = Ok (tt, w') |- _ => rename R into H end.
  rstep H. tinv. winv. repeat match goal with u : unit |- _ => destruct u end.
  match goal with R : fget self (w_pool w) = Some ?q |- _ => unfold pool_at in Hp; rewrite Hp in R; inversion R; subst q; clear R end.
  match goal with R : tr _ _ (p_ta p) _ _ _ _ = Ok (_, ?wx) |- _ => rename R into X1; rename wx into W1 end.
  match goal with R : tr _ _ (p_tb p) _ _ _ _ = Ok (_, ?wx) |- _ => rename R into X2; rename wx into W2 end.
  match goal with R : new_share_total _ _ _ _ _ _ _ _ = Ok (?q, ?wx) |- _ => rename R into Hn; rename wx into W3; rename q into n end.
  match goal with R : mint_shares _ _ _ _ _ = Ok (_, ?wx) |- _ => apply mint_shares_ok in R;
    destruct R as [p3 [W4 [Ep3 [Mt [Eend [Etok _]]]]]]; rename wx into W5 end.
  destruct (F _ _ _ _ _ _ _ X1) as [A1 _]. destruct (F _ _ _ _ _ _ _ X2) as [B1 _].
  assert (Ep2 : fget self (w_pool W2) = Some p). { rewrite B1. simpl. rewrite A1. simpl. exact Hp. }
  match goal with R : fget self (w_pool W5) = Some ?q |- _ => rewrite Eend in R; inversion R; subst q; clear R end.
  assert (N : p_ta p3 = p_ta p /\ p_tb p3 = p_tb p /\ p_share p3 = p_share p /\
    (forall x, x <> p_share p -> bal W3 x self = bal W2 x self) /\
    (0 < p_ra p -> 0 < p_rb p -> p3 = p /\ n = Z.min (Z.quot (bal W2 (p_ta p) self * p_total p) (p_ra p)) (Z.quot (bal W2 (p_tb p) self * p_total p) (p_rb p)))).
  { unfold new_share_total in Hn. destruct ((0 <? p_ra p) && (0 <? p_rb p)) eqn:Fd.
    - rstep Hn. rewrite Ep2 in Ep3. inversion Ep3; subst p3. repeat split; auto.
    - rstep Hn. match goal with R : mint_shares _ _ _ _ _ = Ok _ |- _ => apply mint_shares_ok in R;
        destruct R as [p4 [W6 [Ep4 [Mt1 [Eend1 [Etok1 _]]]]]] end.
      rewrite Ep2 in Ep4. inversion Ep4; subst p4. rewrite Eend1 in Ep3. inversion Ep3; subst p3. repeat split.
      + intros z Nx. match goal with |- bal ?v _ _ = _ => rewrite (bal_wtok W6 v) by auto end. rewrite (mt_bal _ _ _ _ _ Mt1).
        destruct (Z.eqb_spec z (p_share p)); [contradiction|]. cbn [andb]. unfold ind. lia.
      + intros; lia.
      + intros; lia. }
  destruct N as [N1 [N2 [N3 [N4 N5]]]].
  assert (E0 : forall x, x <> p_share p -> bal W5 x self = bal W2 x self).
  { intros x Nx. rewrite (bal_wtok W4 W5) by auto. rewrite (mt_bal _ _ _ _ _ Mt), N3, (N4 x Nx).
    destruct (Z.eqb_spec x (p_share p)); [contradiction|]. cbn [andb]. unfold ind. lia. }
  eexists. split; [unfold pool_at; simpl; apply fget_set_same|]. unfold same_tokens.
  cbn [set_p_res set_p_total p_ta p_tb p_share p_ra p_rb p_total]. change (bal (set_pool W5 _)) with (bal W5).
  rewrite !E0 by auto. split; [auto|]. split; [reflexivity|]. split; [reflexivity|].
  intros Fa Fb Pt Ga Gb. destruct (N5 Fa Fb) as [-> ->]. pose proof (mt_pos _ _ _ _ _ Mt) as Pm.
  rewrite !Z.quot_div_nonneg in * by nia.
  set (qa := bal W2 (p_ta p) self * p_total p / p_ra p) in *. set (qb := bal W2 (p_tb p) self * p_total p / p_rb p) in *.
  assert (La : p_ra p * qa <= bal W2 (p_ta p) self * p_total p) by (apply Z.mul_div_le; lia).
  assert (Lb : p_rb p * qb <= bal W2 (p_tb p) self * p_total p) by (apply Z.mul_div_le; lia).
  replace (p_total p + (Z.min qa qb - p_total p)) with (Z.min qa qb) by lia.
  split; [lia|]. split; [|]; [assert (p_ra p * Z.min qa qb <= p_ra p * qa) by nia|assert (p_rb p * Z.min qa qb <= p_rb p * qb) by nia]; lia.
Qed.
Print Assumptions C139_foreign_deposit_solvent.

(** ** C140: a token with a fee on transfer.  The pool pays for the amount offered, although less arrives:
    the product of the reserves falls by the fee times the remaining reserve. *)
Theorem C140_taxed_swap_pays_for_the_offer tax sink e c self sender offer amt mi ms dl mf w ret w' p x y buy :
  sink <> self -> sender <> self -> pool_at w self p -> p_ta p <> p_tb p -> side p offer x y buy ->
  pool_swap_with (taxed tax sink) e c self sender offer amt mi ms dl mf w = Ok (ret, w') ->
  exists p' y', pool_at w' self p' /\ side p' offer (x + amt - tax offer amt) y' buy /\
    x * y - (x + amt) < (x + amt) * y' <= x * y /\
    (x + amt - tax offer amt) * y' <= x * y - tax offer amt * y'.
Proof.
  intros Ns Nu Hp Nt Sd X. unfold pool_swap_with in X. rstep X. winv.
  match goal with R : do_swap_with _ _ _ _ _ _ _ _ _ _ = _ |- _ => apply do_swap_with_ok in R; destruct R as [p0 [r [w1 [w2 [w3 D]]]]] end.
  destruct D as [D1 D2 D3 D4 D5 D6 D7 D8]. unfold pool_at in *. rewrite Hp in D1. inversion D1; subst p0. clear D1.
  destruct (side_eq _ _ _ _ _ Sd) as [E1 [E2 E3]].
  assert (Ex : res_of p offer = x /\ res_other p offer = y /\ buy_of p offer = buy).
  { auto. }
  destruct Ex as [Ex [Ey Eb]]. rewrite Ex, Ey in *.
  apply taxed_ok in D5. destruct D5 as [w0 [M1 M2]].
  assert (Er : bal w1 offer self - bal w offer self = amt - tax offer amt).
  { rewrite (mv_bal _ _ _ _ _ _ M2), (mv_bal _ _ _ _ _ _ M1), !Z.eqb_refl. cbn [andb].
    destruct (Z.eqb_spec self sender); [congruence|]. destruct (Z.eqb_spec self sink); [congruence|]. unfold ind. lia. }
  pose proof (sn_x _ _ _ _ _ D3). pose proof (sn_y _ _ _ _ _ D3). pose proof (sn_dx _ _ _ _ _ D3).
  pose proof (gross_bounds x y amt ltac:(lia) ltac:(lia) ltac:(lia)) as [G1 G2].
  rewrite (sn_sum _ _ _ _ _ D3), Er in D8.
  subst w'. simpl. rewrite fget_set_same. eexists _, (y - gross_out x y amt). split; [reflexivity|]. split.
  - unfold set_res_for. unfold side in *. destruct Sd as [[S1 [S2 [S3 S4]]]|[S1 [S5 [S2 [S3 S4]]]]].
    + left. rewrite S1, Z.eqb_refl. cbn. repeat split; auto; lia.
    + right. destruct (Z.eqb_spec offer (p_ta p)); [congruence|]. cbn. repeat split; auto; lia.
  - split; nia.
Qed.
Print Assumptions C140_taxed_swap_pays_for_the_offer.

(** tokens that charge a tenth of every transfer, collected by -8 *)
Definition xtax : Transfer := taxed (fun _ a => a / 10) (-8).
Lemma xtax_fair : fair_for 10 xtax.
Proof. apply fair_taxed; [lia|]. intros t a P. apply Z.div_le_upper_bound; lia. Qed.
Example C139_example : covered xW 10 xP /\ p_ta xP <> p_tb xP /\ p_share xP <> p_ta xP /\ p_share xP <> p_tb xP /\
  (exists r, pool_swap_with xtax (env_of [-4]) None 10 (-4) 1 10000 None None None None xW = Ok r) /\
  (exists r, pool_withdraw_with xtax (env_of [-2]) None 10 (-2) 10000 1 1 None xW = Ok r) /\
  (exists r, pool_provide_with xtax (env_of [-4]) None 10 (-4) (Some 1000) None (Some 2000) None None None xW = Ok r).
Proof.
  split; [vm_compute; split; discriminate|]. split; [vm_compute; discriminate|]. split; [vm_compute; discriminate|]. split; [vm_compute; discriminate|].
  split; [|split]; eexists; vm_compute; reflexivity.
Qed.

(** C140 fails: 9000 arrive and 19743 are paid, 1956 more than for a swap of 9000 of an ordinary token.
    The product of the reserves falls by 0.09%. *)
Theorem C140_swap_pays_for_what_arrives_refuted : exists w1 w2 p1 p2,
  reachable xH xW /\ pool_at xW 10 xP /\
  pool_swap_with xtax (env_of [-4]) None 10 (-4) 1 10000 None None None None xW = Ok (19743, w1) /\
  pool_swap (env_of [-4]) None 10 (-4) 1 9000 None None None None xW = Ok (17787, w2) /\
  pool_at w1 10 p1 /\ pool_at w2 10 p2 /\ p_ra p1 = p_ra p2 /\ p_ra p1 = p_ra xP + 9000 /\
  p_rb p2 - p_rb p1 = 1962 /\ 10000 * (p_ra p1 * p_rb p1) < 9991 * (p_ra xP * p_rb xP).
Proof.
  exists (after (pool_swap_with xtax (env_of [-4]) None 10 (-4) 1 10000 None None None None xW)),
    (after (pool_swap (env_of [-4]) None 10 (-4) 1 9000 None None None None xW)), (set_p_res xP 1009000 1980198), (set_p_res xP 1009000 1982160).
  split; [apply xW_reach|]. vm_compute. repeat split.
Qed.
Print Assumptions C140_swap_pays_for_what_arrives_refuted.
