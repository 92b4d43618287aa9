(** The stake invariant holds for every stake contract in every reachable ledger; reward
    solvency holds on runs without a repeated distribution time. *)
From Coq Require Import ZArith List Bool Lia.
From Coq Require Import ZifyBool.
From Verif Require Import Base FMap Decimal DecimalProofs World Token TokenProofs Frame Stake Pool PoolProofs
  Stable StableProofs Rewards Vest Factory Router System SysFrame SysInv SysPool SysSupply SysVest.
Import ListNotations.
Open Scope Z_scope.

(** ** Sums over keys *)
Lemma zsum_keys_set {V} f k (v : V) m : zsum f (fkeys (fset k v m)) = zsum f (fkeys m) + (if fmem k m then 0 else f k).
Proof.
  unfold fmem. induction m as [|[k' v'] tl IH]; simpl; [lia|].
  destruct (Z.ltb_spec k k'); simpl; [lia|]. destruct (Z.eqb_spec k k'); simpl; [subst; lia|].
  unfold fkeys in *. rewrite IH. destruct (fget k tl); lia.
Qed.
Lemma keys_set {V} k (v : V) m d : In d (fkeys (fset k v m)) -> d = k \/ In d (fkeys m).
Proof.
  unfold fkeys. rewrite in_map_iff. intros [[a b] [<- I]]. apply fset_in in I. destruct I as [I|I]; [inversion I; auto|].
  right. apply in_map_iff. exists (a, b). auto.
Qed.
Lemma keys_mem {V} (m : fmap V) d : fmem d m = true -> In d (fkeys m).
Proof.
  unfold fmem. destruct (fget d m) as [v|] eqn:E; [|discriminate]. intros _. apply fget_in in E.
  unfold fkeys. apply in_map_iff. exists (d, v). auto.
Qed.
Lemma zsum_nonneg f l : (forall a, In a l -> 0 <= f a) -> 0 <= zsum f l.
Proof. intros H. rewrite <- (zsum_zero l). apply zsum_le. auto. Qed.
Lemma fsum_map_le {V} (f : V -> Z) (m : fmap V) : (forall k v, In (k, v) m -> f v <= 0) -> fsum f m <= 0.
Proof. intros H. rewrite <- (fsum_zero m). apply fsum_le. auto. Qed.

(** ** Stakes of one user *)
Fixpoint ksum (f : StakeE -> Z) (l : list StakeE) : Z := match l with [] => 0 | k :: tl => f k + ksum f tl end.
Definition stakes_sum (l : list StakeE) : Z := ksum k_amt l.
(** the pro-rata share of the stakes older than [d] in a reward [A], [Sd] being the total *)
Definition due_of (d A Sd : Z) (k : StakeE) : Z := if k_ts k <? d then k_amt k * A / Sd else 0.
Definition due (d A Sd : Z) (b : Bonding) : Z := if b_last b <? d then ksum (due_of d A Sd) (b_stakes b) else 0.

Lemma ksum_app f l1 l2 : ksum f (l1 ++ l2) = ksum f l1 + ksum f l2.
Proof. induction l1; simpl; lia. Qed.
Lemma ksum_le f g l : (forall k, In k l -> f k <= g k) -> ksum f l <= ksum g l.
Proof.
  induction l as [|k l IH]; simpl; intros H; [lia|]. pose proof (H k (or_introl eq_refl)).
  specialize (IH (fun k' I => H k' (or_intror I))). lia.
Qed.
Lemma ksum_nonneg f l : (forall k, In k l -> 0 <= f k) -> 0 <= ksum f l.
Proof.
  induction l as [|k l IH]; simpl; intros H; [lia|]. pose proof (H k (or_introl eq_refl)).
  specialize (IH (fun k' I => H k' (or_intror I))). lia.
Qed.
Lemma ksum_ext f g l : (forall k, In k l -> f k = g k) -> ksum f l = ksum g l.
Proof.
  induction l as [|k l IH]; simpl; intros H; [reflexivity|]. rewrite (H k) by auto. rewrite IH; auto.
Qed.
Lemma ksum_scale f c l : ksum (fun k => c * f k) l = c * ksum f l.
Proof. induction l; simpl; lia. Qed.

Lemma remove_stake_ok l : forall amt ts l', remove_stake l amt ts = Ok l' ->
  exists k, In k l /\ k_amt k = amt /\ k_ts k = ts /\ (forall f, ksum f l = ksum f l' + f k) /\ (forall x, In x l' -> In x l) /\
   (forall x, In x l -> x = k \/ In x l').
Proof.
  induction l as [|k l IH]; simpl; intros amt ts l' H; [discriminate|].
  destruct ((k_amt k =? amt) && (k_ts k =? ts)) eqn:B.
  - inversion H; subst. exists k. split; [auto|]. split; [lia|]. split; [lia|]. split; [intros; lia|]. split; [auto|].
    intros x [->|I]; auto.
  - rstep H. match goal with K : remove_stake l amt ts = Ok _ |- _ => destruct (IH _ _ _ K) as [k' [I1 [I2 [I3 [I4 [I5 I6]]]]]] end.
    exists k'. split; [auto|]. split; [auto|]. split; [auto|]. split; [|split].
    + intros f. simpl. rewrite I4. lia.
    + intros y [->|I]; [auto|]. right. apply I5; auto.
    + intros y [->|I]; [right; left; auto|]. destruct (I6 _ I); auto. right. right. auto.
Qed.

(** ** What withdraw_rewards pays *)
Definition okz (r : res Z) : Z := match r with Ok v => v | Err _ => 0 end.
Definition day_pay (h tsh : fmap Z) (l : list StakeE) (d : Z) : Z :=
  match fget d h, fget d tsh with
  | Some A, Some Sd => if 0 <? Sd then ksum (fun k => okz (stake_share k d A Sd)) l else 0
  | _, _ => 0
  end.

Lemma day_rewards_ok l : forall d A Sd acc r, day_rewards l d A Sd acc = Ok r ->
  r = acc + ksum (fun k => okz (stake_share k d A Sd)) l /\ forall k, In k l -> exists v, stake_share k d A Sd = Ok v.
Proof.
  induction l as [|k l IH]; intros d A Sd acc r H.
  - simpl in H. inversion H; subst. simpl. split; [lia|]. intros k [].
  - change (day_rewards (k :: l) d A Sd acc) with (let? r := stake_share k d A Sd in let? acc' := add_i acc r in day_rewards l d A Sd acc') in H.
    destruct (stake_share k d A Sd) as [v|] eqn:E; [|discriminate]. rstep H.
    match goal with K : day_rewards l _ _ _ _ = Ok _ |- _ => apply IH in K; destruct K as [H1 H2] end.
    split. { change (ksum (fun k0 => okz (stake_share k0 d A Sd)) (k :: l)) with (okz (stake_share k d A Sd) + ksum (fun k0 => okz (stake_share k0 d A Sd)) l).
      rewrite E. unfold okz at 1. lia. }
    intros k' [<-|I]; eauto.
Qed.

Lemma pend_days_ok days : forall h tsh l acc r, pend_days days h tsh l acc = Ok r ->
  r = acc + zsum (day_pay h tsh l) days /\
  forall d A Sd k, In d days -> fget d h = Some A -> fget d tsh = Some Sd -> 0 < Sd -> In k l -> exists v, stake_share k d A Sd = Ok v.
Proof.
  induction days as [|d days IH]; intros h tsh l acc r H.
  - simpl in H. inversion H; subst. simpl. split; [lia|]. intros d A Sd k [].
  - unfold pend_days in H; fold pend_days in H. rstep H.
    match goal with K : pend_days days _ _ _ _ = Ok _ |- _ => apply IH in K; destruct K as [H1 H2] end.
    match goal with K : _ = Ok ?y |- _ => assert (E : y = acc + day_pay h tsh l d /\
       forall A Sd k, fget d h = Some A -> fget d tsh = Some Sd -> 0 < Sd -> In k l -> exists v, stake_share k d A Sd = Ok v);
       [|destruct E as [E1 E2]] end.
    { unfold day_pay. destruct (fget d h) as [A|]; [|split; [inversion R; lia|intros; discriminate]].
      destruct (fget d tsh) as [Sd|]; [|split; [inversion R; lia|intros; discriminate]].
      destruct (Z.ltb_spec 0 Sd); [|split; [inversion R; lia|intros A0 S0 k _ Q; inversion Q; subst; lia]].
      apply day_rewards_ok in R. destruct R as [R1 R2]. split; [auto|]. intros A0 S0 k Q1 Q2. inversion Q1; inversion Q2; subst. auto. }
    simpl. split; [lia|]. intros d' A Sd k [<-|I]; eauto.
Qed.

(** the days between the last withdrawal and now *)
Lemma rel_days t last l : (forall lo, fsorted_from (V := unit) lo (map (fun d => (d, tt)) l) ->
  match find (fun d => last <? d) l with None => [] | Some f => take_le t (skip_lt f l) end = filter (fun d => (last <? d) && (d <=? t)) l).
Proof.
  assert (TK : forall l lo, fsorted_from (V := unit) (Some lo) (map (fun d => (d, tt)) l) -> last <= lo ->
     take_le t l = filter (fun d => (last <? d) && (d <=? t)) l).
  { clear. induction l as [|d l IH]; simpl; intros lo Sd L; auto. destruct Sd as [S1 S2].
    destruct (Z.ltb_spec last d); [|lia]. simpl. destruct (Z.leb_spec d t).
    - f_equal. apply (IH d); auto. lia.
    - symmetry. clear IH. assert (G : forall x, In x l -> t < x).
      { intros x I. assert (I2 : In (x, tt) (map (fun d => (d, tt)) l)) by (apply in_map_iff; eauto).
        pose proof (fsorted_from_in _ _ _ _ S2 I2) as Q. simpl in Q. lia. }
      induction l as [|y l IH2]; simpl; auto. pose proof (G y (or_introl eq_refl)). destruct (Z.leb_spec y t); [lia|].
      rewrite andb_false_r. apply IH2; [simpl in S2; destruct S2 as [S3 S4]; destruct l; simpl in *; auto; intuition lia|].
      intros x I. apply G; right; auto. }
  induction l as [|d l IH]; simpl; intros lo Sd; auto. destruct Sd as [S1 S2].
  destruct (Z.ltb_spec last d).
  - simpl. rewrite Z.ltb_irrefl. simpl. destruct (Z.leb_spec d t).
    + f_equal. apply (TK l d); auto. lia.
    + symmetry. pose proof (TK (d :: l) (d - 1)) as Q. simpl in Q. destruct (Z.leb_spec d t); [lia|].
      destruct (Z.ltb_spec last d); [|lia]. simpl in Q. symmetry. apply Q; [split; [lia|auto]|lia].
  - simpl. specialize (IH _ S2). destruct (find _ l) as [f|] eqn:F; auto.
    assert (d < f).
    { apply find_some in F. lia. }
    destruct (Z.ltb_spec d f); [|lia]. exact IH.
Qed.
Lemma sorted_keys {V} (m : fmap V) : forall lo, fsorted_from lo m -> fsorted_from (V := unit) lo (map (fun d => (d, tt)) (fkeys m)).
Proof. induction m as [|[k v] m IH]; simpl; intros lo H; auto. destruct H. split; auto. Qed.

Lemma zsum_filter f p l : zsum f (filter p l) = zsum (fun d => if p d then f d else 0) l.
Proof. induction l as [|d l IH]; simpl; auto. destruct (p d); simpl; rewrite IH; lia. Qed.

Definition pend_day (h tsh : fmap Z) (t : Z) (b : Bonding) (d : Z) : Z :=
  if (b_last b <? d) && (d <=? t) then day_pay h tsh (b_stakes b) d else 0.
Lemma pending_ok s t a b p h : fget a (s_rh s) = Some h -> fsorted h -> pending_rewards s t a b = Ok p ->
  p = zsum (pend_day h (s_tsh s) t b) (fkeys h) /\
  forall d A Sd k, fget d h = Some A -> fget d (s_tsh s) = Some Sd -> 0 < Sd -> b_last b < d <= t -> In k (b_stakes b) ->
    exists v, stake_share k d A Sd = Ok v.
Proof.
  intros Eh Sh H. unfold pending_rewards in H. rewrite Eh in H. unfold of_option, rbind in H.
  pose proof (rel_days t (b_last b) (fkeys h) _ (sorted_keys h _ Sh)) as F.
  assert (Q : pend_days (filter (fun d => (b_last b <? d) && (d <=? t)) (fkeys h)) h (s_tsh s) (b_stakes b) 0 = Ok p).
  { rewrite <- F. destruct (find _ (fkeys h)); auto. }
  apply pend_days_ok in Q. destruct Q as [Q1 Q2]. split.
  - rewrite Q1, zsum_filter. simpl. apply zsum_ext. intros d _. reflexivity.
  - intros d A Sd k E1 E2 P L I. eapply Q2; eauto. apply filter_In. split; [|lia].
    apply keys_mem. unfold fmem. rewrite E1. auto.
Qed.

(** one share is at most the pro-rata share *)
Lemma stake_share_le k d A Sd v : 0 <= k_amt k -> 0 <= A -> 0 < Sd -> stake_share k d A Sd = Ok v ->
  v <= due_of d A Sd k /\ k_ts k <= d.
Proof.
  intros P PA PS H. unfold stake_share in H. unfold as_u128 in H.
  destruct (Z.ltb_spec (k_amt k) 0); [lia|]. unfold mul_u, div_u, sub_64, chk in H.
  destruct (in_u128 (k_amt k * A)); [|discriminate]. unfold rbind at 1 in H.
  destruct (Z.eqb_spec Sd 0); [lia|]. unfold rbind at 1 in H.
  destruct (in_u64 (d - k_ts k)) eqn:B; [|discriminate]. unfold rbind at 1 in H. unfold in_u64 in B.
  assert (L : k_ts k <= d) by lia. split; [|exact L].
  set (sh := k_amt k * A / Sd) in *. assert (Sh : 0 <= sh) by (apply Z.div_pos; nia).
  match type of H with rbind ?m _ = _ => destruct m as [mu|] eqn:M; [|discriminate] end. unfold rbind in H.
  assert (Mb : 0 <= mu <= DEC /\ (k_ts k = d -> mu = 0)).
  { destruct (Z.leb_spec 60 ((d - k_ts k) / SECONDS_PER_DAY)) as [Hd|Hd].
    - inversion M; subst mu. split; [unfold dec_one, DEC; lia|]. intros E. rewrite E, Z.sub_diag in Hd. rewrite Z.div_0_l in Hd; unfold SECONDS_PER_DAY; lia.
    - set (dd := (d - k_ts k) / SECONDS_PER_DAY) in *.
      assert (0 <= dd) by (apply Z.div_pos; unfold SECONDS_PER_DAY; lia).
      apply dec_from_ratio_ok in M. destruct M as [_ [_ ->]]. rewrite Z.quot_div_nonneg by (unfold DEC; lia).
      assert (dd * DEC / 60 <= DEC) by (apply Z.div_le_upper_bound; unfold DEC; lia).
      assert (0 <= dd * DEC / 60) by (apply Z.div_pos; unfold DEC; lia).
      split; [lia|]. intros E. assert (dd = 0) by (unfold dd; rewrite E, Z.sub_diag; reflexivity). match goal with K : dd = 0 |- _ => rewrite K end. reflexivity. }
  destruct Mb as [Mb Mz]. apply i_mul_dec_ok in H. subst v. unfold due_of. fold sh.
  assert (W : wrap_i128 sh <= sh) by (unfold wrap_i128, U128_MAX; destruct (sh <=? I128_MAX); lia).
  assert (Q : forall x, x <= sh -> Z.quot (x * mu) DEC <= (if k_ts k <? d then sh else 0)).
  { intros x Lx. destruct (Z.ltb_spec (k_ts k) d).
    - destruct (Z.lt_ge_cases x 0).
      + assert (Z.quot (x * mu) DEC <= 0); [|lia].
        replace (x * mu) with (- (- x * mu)) by lia. rewrite Z.quot_opp_l by (unfold DEC; lia).
        pose proof (Z.quot_pos (- x * mu) DEC ltac:(nia) ltac:(unfold DEC; lia)). lia.
      + apply Z.quot_le_upper_bound; [unfold DEC; lia|]. nia.
    - rewrite Mz by lia. rewrite Z.mul_0_r. reflexivity. }
  apply Q; auto.
Qed.
Lemma due_of_nonneg d A Sd k : 0 <= k_amt k -> 0 <= A -> 0 <= Sd -> 0 <= due_of d A Sd k.
Proof.
  intros. unfold due_of. destruct (k_ts k <? d); [|lia]. destruct (Z.eq_dec Sd 0) as [->|].
  - rewrite Zdiv_0_r. lia.
  - apply Z.div_pos; nia.
Qed.

(** ** What each call does *)
Lemma user_fsum f s u b' : f (mkBonding [] 0 0) = 0 ->
  fsum f (fset u b' (s_users s)) = fsum f (s_users s) - f (s_user s u) + f b'.
Proof. intros E. rewrite fsum_set. unfold s_user, fgetd. destruct (fget u (s_users s)); lia. Qed.

Record SBond (e : Env) (c : option Addr) (self u amt : Addr) (w w' : World) (s s' : Stake) : Prop := {
  sb_code : fget self (w_code w) = Some KStake;
  sb_before : fget self (w_stake w) = Some s;
  sb_auth : authed e c u = true;
  sb_min : s_minbond s <= amt;
  sb_tot : b_total (s_user s u) + amt <= I128_MAX;
  sb_all : s_total s + amt <= I128_MAX;
  sb_paid : exists w1, Moved (s_lp s) u self amt w w1 /\ w' = set_stake w1 (fset self s' (w_stake w));
  sb_after : s' = set_s_total (set_s_users s (fset u (mkBonding (b_stakes (s_user s u) ++ [mkStakeE amt (w_now w)])
     (b_last (s_user s u)) (b_total (s_user s u) + amt)) (s_users s))) (s_total s + amt) }.
Lemma stake_bond_ok e c self u amt w r w' : stake_bond e c self u amt w = Ok (r, w') -> exists s s', SBond e c self u amt w w' s s'.
Proof.
  unfold stake_bond. intros H. rstep H. winv. tinv.
  match goal with K : fget self (w_stake w) = Some ?q |- _ => exists q; rename q into s end. eexists.
  match goal with K : Moved _ _ _ _ _ ?q |- _ => rename K into M; rename q into w1 end.
  pose proof (mv_rest _ _ _ _ _ _ M) as Er.
  assert (En : w_now w1 = w_now w) by (rewrite Er; reflexivity).
  constructor; auto; try lia.
  exists w1. split; auto. rewrite En, Er. reflexivity.
Qed.

Record SUnbond (e : Env) (c : option Addr) (self u amt ts : Addr) (w w' : World) (s s' : Stake) (l : list StakeE) : Prop := {
  sn_code : fget self (w_code w) = Some KStake;
  sn_before : fget self (w_stake w) = Some s;
  sn_auth : authed e c u = true;
  sn_list : remove_stake (b_stakes (s_user s u)) amt ts = Ok l;
  sn_paid : exists w1, Moved (s_lp s) self u amt w w1 /\ w' = set_stake w1 (fset self s' (w_stake w));
  sn_after : s' = set_s_total (set_s_users s (fset u (mkBonding l
     (b_last (s_user s u)) (b_total (s_user s u) - amt)) (s_users s))) (s_total s - amt) }.
Lemma stake_unbond_ok e c self u amt ts w r w' : stake_unbond e c self u amt ts w = Ok (r, w') ->
  exists s s' l, SUnbond e c self u amt ts w w' s s' l.
Proof.
  unfold stake_unbond. intros H. rstep H. winv. tinv.
  match goal with K : fget self (w_stake w) = Some ?q |- _ => exists q; rename q into s end. eexists. eexists.
  match goal with K : Moved _ _ _ _ _ ?q |- _ => rename K into M; rename q into w1 end.
  pose proof (mv_rest _ _ _ _ _ _ M) as Er.
  constructor; eauto.
  exists w1. split; auto. rewrite Er. reflexivity.
Qed.

Record SFlow (e : Env) (c : option Addr) (self u a : Addr) (w w' : World) (s s' : Stake) : Prop := {
  sf_code : fget self (w_code w) = Some KStake;
  sf_before : fget self (w_stake w) = Some s;
  sf_auth : authed e c u = true;
  sf_role : u = s_manager s \/ u = s_owner s;
  sf_new : ~ In a (s_dists s);
  sf_world : w' = set_stake w (fset self s' (w_stake w));
  sf_after : s' = set_s_dists s (s_dists s ++ [a]) (fset a fempty (s_rh s)) }.
Lemma zmem_in a l : zmem a l = true <-> In a l.
Proof.
  unfold zmem. rewrite existsb_exists. split.
  - intros [x [I E]]. apply Z.eqb_eq in E. subst; auto.
  - intros I. exists a. split; auto. apply Z.eqb_refl.
Qed.
Lemma zmem_not_in a l : zmem a l = false <-> ~ In a l.
Proof. rewrite <- zmem_in. destruct (zmem a l); split; congruence. Qed.
Lemma stake_flow_ok e c self u a w r w' : stake_create_flow e c self u a w = Ok (r, w') -> exists s s', SFlow e c self u a w w' s s'.
Proof.
  unfold stake_create_flow. intros H. rstep H. winv.
  match goal with K : fget self (w_stake w) = Some ?q |- _ => exists q; rename q into s end. eexists.
  constructor; eauto; [lia|]. apply zmem_not_in. apply negb_true_iff. auto.
Qed.

Record SDist (e : Env) (c : option Addr) (self u amt a : Addr) (w w' : World) (s s' : Stake) (h : fmap Z) : Prop := {
  sd_code : fget self (w_code w) = Some KStake;
  sd_before : fget self (w_stake w) = Some s;
  sd_auth : authed e c u = true;
  sd_role : u = s_manager s \/ u = s_owner s;
  sd_flow : In a (s_dists s);
  sd_hist : fget a (s_rh s) = Some h;
  sd_paid : Moved a u self amt (set_stake w (fset self s' (w_stake w))) w';
  sd_after : s' = set_s_hist s (fset (w_now w) (as_u128 (s_total s)) (s_tsh s)) (fset a (fset (w_now w) (as_u128 amt) h) (s_rh s)) }.
Lemma stake_distribute_ok e c self u amt a w r w' : stake_distribute e c self u amt a w = Ok (r, w') ->
  exists s s' h, SDist e c self u amt a w w' s s' h.
Proof.
  unfold stake_distribute. intros H. rstep H. winv. tinv.
  match goal with K : fget self (w_stake w) = Some ?q |- _ => exists q; rename q into s end. eexists.
  match goal with K : fget a (s_rh s) = Some ?q |- _ => exists q end.
  constructor; eauto; [lia|]. apply zmem_in; auto.
Qed.

(** what withdraw_rewards sends *)
Record Paid (self u : Addr) (l : list Addr) (p : Addr -> Z) (w w' : World) : Prop := {
  pd_rest : w' = set_tok w (w_tok w');
  pd_pos : forall x, In x l -> 0 <= p x <= bal w x self;
  pd_bal : forall x y, bal w' x y = bal w x y - ind (zmem x l && (y =? self)) (p x) + ind (zmem x l && (y =? u)) (p x) }.
Definition pays (s : Stake) (t : Z) (b : Bonding) (a : Addr) : Z := okz (pending_rewards s t a b).
Lemma pay_rewards_ok e self u s t b l : forall w r w', NoDup l -> pay_rewards e self u s t b l w = Ok (r, w') ->
  Paid self u l (pays s t b) w w' /\ forall a, In a l -> pending_rewards s t a b = Ok (pays s t b a).
Proof.
  induction l as [|a l IH]; intros w r w' N H.
  - simpl in H. inversion H; subst. split; [|intros a []]. constructor.
    + destruct w'; reflexivity.
    + intros x [].
    + intros x y. unfold ind. simpl. lia.
  - simpl in H. rstep H. winv. tinv. inversion N as [|? ? N1 N2]; subst.
    match goal with K : pay_rewards _ _ _ _ _ _ _ _ = _ |- _ => apply IH in K; auto; destruct K as [P Q] end.
    match goal with K : Moved _ _ _ _ _ ?q |- _ => rename K into M; rename q into w1 end.
    match goal with K : pending_rewards s t a b = Ok ?q |- _ => assert (Ep : pays s t b a = q) by (unfold pays; rewrite K; reflexivity);
      rewrite <- Ep in *; rename K into Hp end.
    destruct P as [P1 P2 P3]. destruct M as [M1 M2 M3 M4 M5 M6 M7 M8].
    split.
    + constructor.
      * rewrite P1, M1. reflexivity.
      * intros z [<-|I]; [lia|]. specialize (P2 _ I). rewrite M4 in P2.
        destruct (Z.eqb_spec z a); [subst; tauto|]. simpl in P2. lia.
      * intros z y. rewrite P3, M4. unfold zmem; simpl. fold (zmem z l).
        destruct (Z.eqb_spec z a) as [->|Nx]; simpl.
        -- rewrite (proj2 (zmem_not_in a l) N1). simpl. lia.
        -- lia.
    + intros z [<-|I]; auto.
Qed.

Record SWith (e : Env) (self u : Addr) (w w' : World) (s s' : Stake) : Prop := {
  sw_code : fget self (w_code w) = Some KStake;
  sw_before : fget self (w_stake w) = Some s;
  sw_pend : forall a, In a (s_dists s) -> pending_rewards s (w_now w) a (s_user s u) = Ok (pays s (w_now w) (s_user s u) a);
  sw_paid : exists w1, Paid self u (s_dists s) (pays s (w_now w) (s_user s u)) w w1 /\ w' = set_stake w1 (fset self s' (w_stake w));
  sw_after : s' = set_s_users s (fset u (mkBonding (b_stakes (s_user s u)) (w_now w) (b_total (s_user s u))) (s_users s)) }.
Lemma stake_withdraw_ok e self u w r w' : stake_withdraw_rewards e self u w = Ok (r, w') ->
  (forall s, fget self (w_stake w) = Some s -> NoDup (s_dists s)) -> exists s s', SWith e self u w w' s s'.
Proof.
  unfold stake_withdraw_rewards. intros H ND. rstep H. winv.
  match goal with K : fget self (w_stake w) = Some ?q |- _ => exists q; rename q into s end. eexists.
  match goal with K : pay_rewards _ _ _ _ _ _ _ _ = _ |- _ => apply pay_rewards_ok in K; [destruct K as [P Q]|auto] end.
  constructor; eauto. eexists. split; [exact P|]. rewrite (pd_rest _ _ _ _ _ _ P). reflexivity.
Qed.

(** ** The invariant *)
Definition old_amt (d : Z) (k : StakeE) : Z := if k_ts k <? d then k_amt k else 0.
Definition before (d : Z) (b : Bonding) : Z := ksum (old_amt d) (b_stakes b).

Record SUser (t : Z) (b : Bonding) : Prop := {
  su_sum : b_total b = stakes_sum (b_stakes b);
  su_last : 0 <= b_last b <= t;
  su_stakes : forall k, In k (b_stakes b) -> 0 < k_amt k /\ 0 <= k_ts k <= t }.
Record StakeInv (w : World) (c : Addr) (s : Stake) : Prop := {
  sv_sorted : fsorted (s_users s);
  sv_user : forall u b, In (u, b) (s_users s) -> SUser (w_now w) b;
  sv_sum : s_total s = fsum b_total (s_users s);
  sv_total : 0 <= s_total s <= I128_MAX;
  sv_min : 0 < s_minbond s;
  sv_nodup : NoDup (s_dists s);
  sv_rh : forall a, In a (s_dists s) <-> fmem a (s_rh s) = true;
  sv_hist : forall a h, fget a (s_rh s) = Some h -> fsorted h /\
     forall d A, fget d h = Some A -> 0 <= A <= I128_MAX /\ 0 <= d <= w_now w /\ fmem d (s_tsh s) = true;
  sv_tsh : forall d T, fget d (s_tsh s) = Some T -> 0 <= T <= I128_MAX /\ 0 <= d <= w_now w /\ fsum (before d) (s_users s) <= T;
  sv_lp : ~ In (s_lp s) (s_dists s) -> s_total s <= bal w (s_lp s) c }.

Lemma SUser_le t t' b : t <= t' -> SUser t b -> SUser t' b.
Proof. intros L [A B C]. constructor; auto; [lia|]. intros k I. specialize (C k I). lia. Qed.
Lemma SUser_empty t : 0 <= t -> SUser t (mkBonding [] 0 0).
Proof. intros. constructor; simpl; auto; [lia|]. intros k []. Qed.
Lemma s_user_ok w c s u : StakeInv w c s -> 0 <= w_now w -> SUser (w_now w) (s_user s u).
Proof.
  intros I P. unfold s_user, fgetd. destruct (fget u (s_users s)) as [b|] eqn:E; [|apply SUser_empty; auto].
  apply fget_in in E. eapply sv_user; eauto.
Qed.
Lemma before_le t d b : SUser t b -> 0 <= before d b <= b_total b.
Proof.
  intros [A B C]. split.
  - apply ksum_nonneg. intros k I. specialize (C k I). unfold old_amt. destruct (_ <? _); lia.
  - rewrite A. apply ksum_le. intros k I. specialize (C k I). unfold old_amt. destruct (_ <? _); lia.
Qed.
Lemma user_total_le w c s u : StakeInv w c s -> 0 <= w_now w -> 0 <= b_total (s_user s u) <= s_total s.
Proof.
  intros I P. pose proof (s_user_ok _ _ _ u I P) as U. pose proof (before_le _ 0 _ U).
  split; [lia|]. rewrite (sv_sum _ _ _ I). 
  assert (PO : forall k v, In (k, v) (s_users s) -> 0 <= b_total v).
  { intros k v K. pose proof (before_le _ 0 _ (sv_user _ _ _ I _ _ K)). lia. }
  unfold s_user, fgetd. destruct (fget u (s_users s)) as [b|] eqn:E.
  - eapply fsum_ge_get; eauto.
  - simpl. apply fsum_nonneg; auto.
Qed.

Lemma StakeInv_same w w' c s : StakeInv w c s -> w_now w <= w_now w' -> bal w (s_lp s) c <= bal w' (s_lp s) c -> StakeInv w' c s.
Proof.
  intros [A1 A2 A3 A4 A5 A6 A7 A8 A9 A10] N B. constructor; auto.
  - intros u b I. eapply SUser_le; eauto.
  - intros a h E. destruct (A8 _ _ E) as [E1 E2]. split; auto. intros d A E3. specialize (E2 _ _ E3). intuition lia.
  - intros d T E. specialize (A9 _ _ E). intuition lia.
  - intros K. specialize (A10 K). lia.
Qed.
Lemma StakeInv_UT w w' c s : UT c w w' -> Ext w w' -> fget c (w_code w) = Some KStake -> StakeInv w c s -> StakeInv w' c s.
Proof. intros U X _ I. eapply StakeInv_same; eauto; [apply X|apply (ut_bal _ _ _ U)]. Qed.

Lemma StakeInv_new w c a lp mb mr m o mc : Good w -> 0 < mb -> StakeInv w c (new_stake a lp mb mr m o mc).
Proof.
  intros G P. constructor; simpl; auto; try lia; try (intros; discriminate).
  - exact I.
  - unfold I128_MAX. lia.
  - constructor.
  - intros x. split; [intros []|discriminate].
  - intros _. apply (good_bal w lp c G).
Qed.

(** changing one user *)
Lemma StakeInv_user w w' c s u b' all : StakeInv w c s -> 0 <= w_now w -> w_now w' = w_now w -> SUser (w_now w) b' ->
  all = s_total s + (b_total b' - b_total (s_user s u)) -> all <= I128_MAX ->
  (forall d, d <= w_now w -> before d b' <= before d (s_user s u)) ->
  (~ In (s_lp s) (s_dists s) -> bal w' (s_lp s) c >= bal w (s_lp s) c + (b_total b' - b_total (s_user s u))) ->
  StakeInv w' c (set_s_total (set_s_users s (fset u b' (s_users s))) all).
Proof.
  intros I P En Ub Ea Em Hb Hl. pose proof (user_total_le _ _ _ u I P) as UT0. pose proof (before_le _ 0 _ Ub).
  destruct I as [A1 A2 A3 A4 A5 A6 A7 A8 A9 A10]. constructor; simpl; rewrite ?En; auto.
  - apply fsorted_set; auto.
  - intros v b I. apply fset_in in I. destruct I as [E|I]; [inversion E; subst; auto|eauto].
  - rewrite user_fsum by reflexivity. lia.
  - lia.
  - intros d T E. specialize (A9 _ _ E). rewrite user_fsum by reflexivity.
    specialize (Hb d ltac:(lia)). intuition lia.
  - intros K. specialize (A10 K). specialize (Hl K). lia.
Qed.

Lemma bond_inv e c self u amt w w' s s' : SBond e c self u amt w w' s s' -> Good w -> 0 <= w_now w -> c <> Some self ->
  StakeInv w self s -> StakeInv w' self s'.
Proof.
  intros [B1 B2 B3 B4 B5 B6 [w1 [M Ew]] ->] G P N I.
  pose proof (authed_ne _ _ _ _ _ _ G B1 N B3) as Ns.
  pose proof (s_user_ok _ _ _ u I P) as [U1 U2 U3]. pose proof (sv_min _ _ _ I).
  assert (En : w_now w' = w_now w) by (rewrite Ew, (mv_rest _ _ _ _ _ _ M); reflexivity).
  eapply StakeInv_user; eauto; simpl; try lia.
  - constructor; simpl; auto.
    + unfold stakes_sum. rewrite ksum_app. simpl. unfold stakes_sum in U1. lia.
    + intros k K. apply in_app_or in K. destruct K as [K|[<-|[]]]; auto. simpl. lia.
  - intros d Hd. unfold before; simpl. rewrite ksum_app. simpl. unfold old_amt at 2. simpl.
    destruct (Z.ltb_spec (w_now w) d); lia.
  - intros _. rewrite Ew. change (bal (set_stake w1 _) (s_lp s) self) with (bal w1 (s_lp s) self).
    rewrite (mv_bal _ _ _ _ _ _ M). rewrite !Z.eqb_refl. destruct (Z.eqb_spec self u); [congruence|]. simpl. lia.
Qed.

Lemma unbond_inv e c self u amt ts w w' s s' l : SUnbond e c self u amt ts w w' s s' l -> Good w -> 0 <= w_now w -> c <> Some self ->
  StakeInv w self s -> StakeInv w' self s'.
Proof.
  intros [B1 B2 B3 B4 [w1 [M Ew]] ->] G P N I.
  pose proof (authed_ne _ _ _ _ _ _ G B1 N B3) as Ns.
  pose proof (s_user_ok _ _ _ u I P) as [U1 U2 U3].
  destruct (remove_stake_ok _ _ _ _ B4) as [k [K1 [K2 [K3 [K4 [K5 K6]]]]]].
  assert (En : w_now w' = w_now w) by (rewrite Ew, (mv_rest _ _ _ _ _ _ M); reflexivity).
  pose proof (sv_total _ _ _ I). pose proof (U3 _ K1).
  eapply StakeInv_user; eauto; simpl; try lia.
  - constructor; simpl; auto.
    unfold stakes_sum in *. rewrite K4 in U1. lia.
  - intros d Hd. unfold before; simpl. rewrite (K4 (old_amt d)). assert (0 <= old_amt d k) by (unfold old_amt; destruct (_ <? _); lia). lia.
  - intros _. rewrite Ew. change (bal (set_stake w1 _) (s_lp s) self) with (bal w1 (s_lp s) self).
    rewrite (mv_bal _ _ _ _ _ _ M). rewrite !Z.eqb_refl. destruct (Z.eqb_spec self u); [congruence|]. simpl. lia.
Qed.

Lemma NoDup_app_one (l : list Z) a : NoDup l -> ~ In a l -> NoDup (l ++ [a]).
Proof.
  induction 1 as [|x l N1 N2 IH]; simpl; intros I; [repeat constructor; auto|].
  constructor; [|apply IH; tauto]. rewrite in_app_iff. simpl. intros [K|[K|[]]]; [tauto|]. subst. tauto.
Qed.
Lemma flow_inv e c self u a w w' s s' : SFlow e c self u a w w' s s' -> StakeInv w self s -> StakeInv w' self s'.
Proof.
  intros [B1 B2 B3 B4 B5 -> ->] [A1 A2 A3 A4 A5 A6 A7 A8 A9 A10]. constructor; simpl; auto.
  - apply NoDup_app_one; auto.
  - intros x. rewrite fmem_set. rewrite in_app_iff, A7. simpl. rewrite orb_true_iff, Z.eqb_eq. intuition congruence.
  - intros x h E. rewrite fget_set in E. destruct (Z.eqb_spec x a); [|apply (A8 x); auto]. inversion E; subst h. split; [exact I|]. discriminate.
  - intros K. apply A10. intros K2. apply K. apply in_or_app; auto.
Qed.

Lemma as_u128_pos x : 0 <= x -> as_u128 x = x.
Proof. unfold as_u128. destruct (Z.ltb_spec x 0); lia. Qed.
Lemma before_total t d users : (forall u b, In (u, b) users -> SUser t b) -> fsum (before d) users <= fsum b_total users.
Proof. intros H. apply fsum_le. intros k v I. apply (before_le t). eauto. Qed.

Lemma moved_fits w t from to amt w' : Moved t from to amt w w' -> Good w -> amt <= I128_MAX.
Proof. intros M G. pose proof (mv_le _ _ _ _ _ _ M). pose proof (good_bal w t from G). lia. Qed.

Lemma dist_inv e c self u amt a w w' s s' h : SDist e c self u amt a w w' s s' h -> Good w -> 0 <= w_now w -> c <> Some self ->
  StakeInv w self s -> StakeInv w' self s'.
Proof.
  intros [B1 B2 B3 B4 B5 B6 M Es] G P N I0. pose proof I0 as [A1 A2 A3 A4 A5 A6 A7 A8 A9 A10].
  pose proof (authed_ne _ _ _ _ _ _ G B1 N B3) as Ns.
  assert (En : w_now w' = w_now w) by (rewrite (mv_rest _ _ _ _ _ _ M); reflexivity).
  pose proof (mv_pos _ _ _ _ _ _ M). pose proof (mv_le _ _ _ _ _ _ M) as ML.
  change (bal (set_stake w _) a u) with (bal w a u) in ML. pose proof (good_bal w a u G).
  rewrite !as_u128_pos in Es by lia.
  rewrite Es. constructor; simpl; rewrite ?En; auto.
  - intros x. rewrite fmem_set, A7. rewrite orb_true_iff, Z.eqb_eq. split; auto. intros [->|]; auto. apply A7; auto.
  - intros x h0 E. rewrite fget_set in E. destruct (Z.eqb_spec x a).
    + inversion E; subst h0. destruct (A8 _ _ B6) as [E1 E2]. split; [apply fsorted_set; auto|]. intros d A E3.
      rewrite fget_set in E3. rewrite fmem_set. destruct (Z.eqb_spec d (w_now w)); simpl.
      * inversion E3; subst. split; [lia|]. split; [lia|auto].
      * apply (E2 _ _ E3).
    + destruct (A8 _ _ E) as [E1 E2]. split; auto. intros d A E3. rewrite fmem_set. destruct (E2 _ _ E3) as [X1 [X2 X3]].
      rewrite X3, orb_true_r. auto.
  - intros d T E. rewrite fget_set in E. destruct (Z.eqb_spec d (w_now w)).
    + inversion E; subst. split; [lia|]. split; [lia|]. rewrite A3. eapply before_total; eauto.
    + apply (A9 _ _ E).
  - intros K. specialize (A10 K). rewrite (mv_bal _ _ _ _ _ _ M). change (bal (set_stake w _) (s_lp s) self) with (bal w (s_lp s) self).
    destruct (Z.eqb_spec self u); [congruence|]. rewrite andb_false_r. unfold ind at 1. destruct (_ && _); simpl; unfold ind; lia.
Qed.

Lemma pend_nostakes s t a b : b_stakes b = [] -> forall p, pending_rewards s t a b = Ok p -> p = 0.
Proof.
  intros E p H. unfold pending_rewards in H. destruct (fget a (s_rh s)) as [h|]; [|discriminate]. unfold of_option, rbind in H.
  destruct (find _ _); [|inversion H; auto]. rewrite E in H. apply pend_days_ok in H. destruct H as [-> _].
  rewrite (zsum_ext _ (fun _ => 0)), zsum_zero; auto. intros d _. unfold day_pay.
  destruct (fget d h); auto. destruct (fget d (s_tsh s)); auto. destruct (0 <? _); auto.
Qed.

Lemma with_inv e self u w w' s s' : SWith e self u w w' s s' -> 0 <= w_now w ->
  StakeInv w self s -> StakeInv w' self s'.
Proof.
  intros [B1 B2 B3 [w1 [M Ew]] ->] P I.
  pose proof (s_user_ok _ _ _ u I P) as [U1 U2 U3].
  assert (En : w_now w' = w_now w) by (rewrite Ew, (pd_rest _ _ _ _ _ _ M); reflexivity).
  match goal with |- StakeInv w' self (set_s_users s ?m) => change (set_s_users s m) with (set_s_total (set_s_users s m) (s_total s)) end.
  pose proof (sv_total _ _ _ I).
  eapply StakeInv_user; eauto; simpl; try lia.
  - constructor; simpl; auto; lia.
  - intros d _. unfold before; simpl. lia.
  - intros K. rewrite Ew. change (bal (set_stake w1 _) (s_lp s) self) with (bal w1 (s_lp s) self).
    rewrite (pd_bal _ _ _ _ _ _ M). rewrite (proj2 (zmem_not_in _ _) K). simpl. lia.
Qed.

(** ** What one transaction does to the record of one stake contract *)
Inductive SStep (e : Env) (k : Call) (w w' : World) (c : Addr) (s : Stake) : Stake -> Prop :=
| ss_bond u amt s' : k = CBond c u amt -> SBond e None c u amt w w' s s' -> SStep e k w w' c s s'
| ss_unbond u amt ts s' l : k = CUnbond c u amt ts -> SUnbond e None c u amt ts w w' s s' l -> SStep e k w w' c s s'
| ss_flow u a s' : k = CFlow c u a -> SFlow e None c u a w w' s s' -> SStep e k w w' c s s'
| ss_dist u amt a s' h : k = CDistribute c u amt a -> SDist e None c u amt a w w' s s' h -> SStep e k w w' c s s'
| ss_with u s' : k = CWithdrawRewards c u -> SWith e c u w w' s s' -> SStep e k w w' c s s'
| ss_same : (match k with
      | CBond c' _ _ | CUnbond c' _ _ _ | CFlow c' _ _ | CDistribute c' _ _ _ | CWithdrawRewards c' _ => c' <> c
      | _ => True end) -> (forall t, bal w t c <= bal w' t c) -> SStep e k w w' c s s.

Theorem stake_step e k w w' c s : exec e k w = Ok (tt, w') -> Good w -> fget c (w_stake w) = Some s -> NoDup (s_dists s) ->
  exists s', fget c (w_stake w') = Some s' /\ SStep e k w w' c s s'.
Proof.
  intros H G Ev ND.
  destruct (exec_framec _ _ _ _ H G) as [G' [X' [_ [_ U]]]].
  pose proof (gd_cstake _ G _ _ Ev) as Hc.
  destruct (exists_dec_acts k c KStake) as [[T|[T [E|E]]]|N]; [|discriminate..|].
  - pose proof (exec_tkind _ _ _ _ _ H T) as TK. rewrite Hc in TK.
    destruct k; simpl in T, TK; inversion T; try discriminate TK; subst; simpl in H.
    + apply stake_initialize_ok in H. destruct H as [_ [H _]]. congruence.
    + apply stake_bond_ok in H. destruct H as [s0 [s' V]].
      pose proof (sb_before _ _ _ _ _ _ _ _ _ V) as E0. rewrite Ev in E0. inversion E0; subst s0.
      exists s'. split; [|eapply ss_bond; eauto]. destruct (sb_paid _ _ _ _ _ _ _ _ _ V) as [w1 [_ ->]]. simpl. apply fget_set_same.
    + apply stake_unbond_ok in H. destruct H as [s0 [s' [l V]]].
      pose proof (sn_before _ _ _ _ _ _ _ _ _ _ _ V) as E0. rewrite Ev in E0. inversion E0; subst s0.
      exists s'. split; [|eapply ss_unbond; eauto]. destruct (sn_paid _ _ _ _ _ _ _ _ _ _ _ V) as [w1 [_ ->]]. simpl. apply fget_set_same.
    + apply stake_flow_ok in H. destruct H as [s0 [s' V]].
      pose proof (sf_before _ _ _ _ _ _ _ _ _ V) as E0. rewrite Ev in E0. inversion E0; subst s0.
      exists s'. split; [|eapply ss_flow; eauto]. rewrite (sf_world _ _ _ _ _ _ _ _ _ V). simpl. apply fget_set_same.
    + apply stake_distribute_ok in H. destruct H as [s0 [s' [h V]]].
      pose proof (sd_before _ _ _ _ _ _ _ _ _ _ _ V) as E0. rewrite Ev in E0. inversion E0; subst s0.
      exists s'. split; [|eapply ss_dist; eauto]. rewrite (mv_rest _ _ _ _ _ _ (sd_paid _ _ _ _ _ _ _ _ _ _ _ V)). simpl. apply fget_set_same.
    + apply stake_withdraw_ok in H; [|intros s0 E0; rewrite Ev in E0; inversion E0; subst; auto]. destruct H as [s0 [s' V]].
      pose proof (sw_before _ _ _ _ _ _ _ V) as E0. rewrite Ev in E0. inversion E0; subst s0.
      exists s'. split; [|eapply ss_with; eauto]. destruct (sw_paid _ _ _ _ _ _ _ V) as [w1 [_ ->]]. simpl. apply fget_set_same.
    + apply stake_update_ok in H. subst w'. exists s. split; [exact Ev|]. apply ss_same; [exact I|]. intros t. unfold bal; simpl; lia.
  - specialize (U _ _ Hc N). rewrite (ut_stake _ _ _ U). exists s. split; auto. apply ss_same; [|apply (ut_bal _ _ _ U)].
    destruct k; try exact I; intros Eq; apply N; left; simpl; f_equal; exact Eq.
Qed.

Lemma StakeInv_step e k w w' c s s' : SStep e k w w' c s s' -> Good w -> 0 <= w_now w -> w_now w <= w_now w' -> StakeInv w c s -> StakeInv w' c s'.
Proof.
  intros St G P N I. destruct St.
  - eapply bond_inv; eauto; discriminate.
  - eapply unbond_inv; eauto; discriminate.
  - eapply flow_inv; eauto.
  - eapply dist_inv; eauto; discriminate.
  - eapply with_inv; eauto.
  - eapply StakeInv_same; eauto.
Qed.

(** a stake record that appears in a transaction is fresh *)
Theorem stake_fresh e k w w' c s' : exec e k w = Ok (tt, w') -> Good w -> fget c (w_stake w) = None -> fget c (w_stake w') = Some s' ->
  exists a lp mb mr m o mc, s' = new_stake a lp mb mr m o mc /\ 0 < mb.
Proof.
  intros H G En Hx.
  destruct (exec_framec _ _ _ _ H G) as [G' [X' [_ [_ U]]]].
  destruct (fget c (w_code w)) as [kd|] eqn:Ec.
  - assert (kd = KStake).
    { pose proof (ex_code _ _ X' _ _ Ec). pose proof (gd_cstake _ G' _ _ Hx). congruence. }
    subst kd.
    destruct (exists_dec_acts k c KStake) as [[T|[T [E|E]]]|N]; [|discriminate..|].
    + pose proof (exec_tkind _ _ _ _ _ H T) as TK. rewrite Ec in TK.
      destruct k; simpl in T, TK; inversion T; try discriminate TK; subst; simpl in H.
      { apply stake_initialize_ok in H. destruct H as [_ [_ [M1 [_ ->]]]]. simpl in Hx. rewrite fget_set_same in Hx. inversion Hx; subst.
        do 7 eexists. split; [reflexivity|auto]. }
      all: exfalso; match type of H with ?m = _ => unfold stake_bond, stake_unbond, stake_create_flow, stake_distribute, stake_withdraw_rewards, stake_update in H end;
        rstep H; winv; congruence.
    + specialize (U _ _ Ec N). rewrite (ut_stake _ _ _ U) in Hx. congruence.
  - destruct (deploys k) eqn:D.
    + destruct k; try discriminate D; deploy_cases H.
      all: try (subst w'; simpl in Hx; rewrite ?fget_set in Hx; congruence).
      all: try (subst w'; simpl in Hx; rewrite ?fget_set in Hx;
        match type of Hx with (if ?b then _ else _) = _ => destruct b; [|congruence] end; inversion Hx; subst;
        do 7 eexists; split; [reflexivity|]; eapply np_mb; eassumption).
      match goal with Q : match ty with Xyk => _ | StableT => _ end |- _ => rename Q into Hm end.
      subst. rename Hm into H. simpl in Hx.
      destruct ty; simpl in H.
      * apply pool_initialize_ok in H. destruct H as [_ [_ [_ [_ [NP H]]]]]. cbv zeta in H. subst. simpl in Hx.
        rewrite fget_set in Hx. match type of Hx with (if ?b then _ else _) = _ => destruct b; [|congruence] end. inversion Hx; subst.
        do 7 eexists. split; [reflexivity|]. eapply np_mb; eassumption.
      * destruct H as [a [_ H]]. apply stable_initialize_ok in H.
        destruct H as [? [? [? [? [? [? [? [? [? [? [? [? H]]]]]]]]]]]]. cbv zeta in H. subst. simpl in Hx.
        rewrite fget_set in Hx. match type of Hx with (if ?b then _ else _) = _ => destruct b; [|congruence] end. inversion Hx; subst.
        do 7 eexists. split; [reflexivity|]. eapply np_mb; eassumption.
    + pose proof (exec_samecode e k D _ _ _ H) as Sc. unfold SameCode in Sc. pose proof (gd_cstake _ G' _ _ Hx). congruence.
Qed.

Definition AllStake : World -> Prop := AllI w_stake StakeInv.
Lemma stake_all_step e k w w' : exec e k w = Ok (tt, w') -> Good w -> 0 <= w_now w -> AllStake w -> AllStake w'.
Proof.
  intros H G P A c s' Hx. destruct (exec_framec _ _ _ _ H G) as [G' [X' [En _]]].
  destruct (fget c (w_stake w)) as [s|] eqn:E.
  - pose proof (A _ _ E) as I. destruct (stake_step _ _ _ _ _ _ H G E (sv_nodup _ _ _ I)) as [s2 [E2 St]].
    rewrite Hx in E2. inversion E2; subst s2. eapply StakeInv_step; eauto. lia.
  - destruct (stake_fresh _ _ _ _ _ _ H G E Hx) as [a [lp [mb [mr [m [o [mc [-> Pm]]]]]]]]. apply StakeInv_new; auto.
Qed.
Lemma stake_time w n s : w_now w <= n -> AllStake w -> AllStake (set_time w n s).
Proof. intros L A c x Hx. apply A in Hx. eapply StakeInv_same; [exact Hx|exact L|apply Z.le_refl]. Qed.
Theorem reach_stake H w : reachable H w -> AllStake w.
Proof.
  apply reach_inv.
  - intros c x Hx. discriminate.
  - intros e k w1 w2 _ [G N _] X. eapply stake_all_step; eauto. lia.
  - intros; apply stake_time; [lia|auto].
Qed.

(** ** Reward solvency *)
Definition owing (h tsh : fmap Z) (b : Bonding) (d : Z) : Z :=
  match fget d h, fget d tsh with Some A, Some T => due d A T b | _, _ => 0 end.
Definition user_due (h tsh : fmap Z) (b : Bonding) : Z := zsum (owing h tsh b) (fkeys h).
(** everything the users could still be owed of one token *)
Definition oblig (s : Stake) (rt : Addr) : Z :=
  match fget rt (s_rh s) with Some h => fsum (user_due h (s_tsh s)) (s_users s) | None => 0 end.
Definition principal (s : Stake) (rt : Addr) : Z := if rt =? s_lp s then s_total s else 0.
Definition SolvInv (w : World) (c : Addr) (s : Stake) : Prop := forall rt, principal s rt + oblig s rt <= bal w rt c.

Lemma sorted_mem {V} (h : fmap V) d : fsorted h -> In d (fkeys h) -> fmem d h = true.
Proof.
  intros S I. unfold fkeys in I. apply in_map_iff in I. destruct I as [[k v] [<- I]]. unfold fmem. simpl.
  rewrite (fsorted_get_in _ _ _ _ S I). auto.
Qed.
Lemma sorted_nodup {V} (h : fmap V) : forall lo, fsorted_from lo h -> NoDup (fkeys h).
Proof.
  induction h as [|[k v] h IH]; simpl; intros lo S; [constructor|]. destruct S as [S1 S2]. constructor; [|eapply IH; eauto].
  intros I. unfold fkeys in I. apply in_map_iff in I. destruct I as [[k' v'] [E I]]. simpl in E. subst.
  pose proof (fsorted_from_in _ _ _ _ S2 I) as Q. simpl in Q. lia.
Qed.

Lemma due_nonneg t d A T b : SUser t b -> 0 <= A -> 0 <= T -> 0 <= due d A T b.
Proof.
  intros U PA PT. unfold due. destruct (_ <? _); [|lia]. apply ksum_nonneg. intros k I. apply due_of_nonneg; auto.
  pose proof (su_stakes _ _ U _ I). lia.
Qed.
Lemma due_scaled t d A T b : SUser t b -> 0 <= A -> 0 <= T -> T * due d A T b <= A * before d b.
Proof.
  intros U PA PT. pose proof (before_le _ d _ U). unfold due. destruct (_ <? _); [|nia].
  unfold before. rewrite <- !ksum_scale. apply ksum_le. intros k I. pose proof (su_stakes _ _ U _ I) as [K1 _].
  unfold due_of, old_amt. destruct (_ <? _); [|lia]. destruct (Z.eq_dec T 0) as [->|]; [rewrite Zdiv_0_r; nia|].
  pose proof (Z.mul_div_le (k_amt k * A) T ltac:(lia)). lia.
Qed.
Lemma due_anti t d A T T' b : SUser t b -> 0 <= A -> 0 <= T <= T' -> (T = 0 -> before d b = 0) -> due d A T' b <= due d A T b.
Proof.
  intros U PA L Z0. unfold due. destruct (_ <? _); [|lia].
  destruct (Z.eq_dec T 0) as [->|N].
  - assert (E : forall k, In k (b_stakes b) -> old_amt d k = 0).
    { specialize (Z0 eq_refl). unfold before in Z0. revert Z0. pose proof (su_stakes _ _ U) as K. revert K.
      generalize (b_stakes b). induction l as [|k l IH]; simpl; intros K Z0 k' I; [tauto|].
      assert (P : forall x, In x (k :: l) -> 0 <= old_amt d x).
      { intros x Ix. specialize (K x Ix). unfold old_amt. destruct (_ <? _); lia. }
      pose proof (P k (or_introl eq_refl)). pose proof (ksum_nonneg (old_amt d) l (fun x Ix => P x (or_intror Ix))).
      destruct I as [<-|I]; [lia|]. apply IH; auto. lia. }
    rewrite (ksum_ext (due_of d A T') (fun _ => 0)), (ksum_ext (due_of d A 0) (fun _ => 0)); [lia|..];
      intros k I; specialize (E k I); pose proof (su_stakes _ _ U _ I); unfold due_of, old_amt in *; destruct (_ <? _); auto; lia.
  - apply ksum_le. intros k I. pose proof (su_stakes _ _ U _ I) as [K1 _]. unfold due_of. destruct (_ <? _); [|lia].
    apply Z.div_le_compat_l; [nia|lia].
Qed.

(** what the contract pays is at most what it owes *)
Lemma pending_le w c s a b p h : StakeInv w c s -> SUser (w_now w) b -> fget a (s_rh s) = Some h ->
  pending_rewards s (w_now w) a b = Ok p -> p <= user_due h (s_tsh s) b.
Proof.
  intros I U Eh H. destruct (sv_hist _ _ _ I _ _ Eh) as [Sh Hh].
  destruct (pending_ok _ _ _ _ _ _ Eh Sh H) as [-> Ok1]. apply zsum_le. intros d _. unfold pend_day, owing, day_pay.
  destruct (fget d h) as [A|] eqn:Ed; [|destruct (_ && _); lia]. destruct (fget d (s_tsh s)) as [T|] eqn:Et; [|destruct (_ && _); lia].
  destruct (Hh _ _ Ed) as [PA [Pd _]]. destruct (sv_tsh _ _ _ I _ _ Et) as [PT _].
  pose proof (due_nonneg _ d A T b U ltac:(lia) ltac:(lia)) as DN.
  destruct (Z.ltb_spec (b_last b) d); [|simpl; lia]. destruct (Z.leb_spec d (w_now w)); [|simpl; lia]. simpl.
  destruct (Z.ltb_spec 0 T); [|lia]. unfold due. destruct (Z.ltb_spec (b_last b) d); [|lia].
  apply ksum_le. intros k K. pose proof (su_stakes _ _ U _ K) as [K1 _].
  destruct (Ok1 _ _ _ _ Ed Et ltac:(lia) ltac:(lia) K) as [v Hv]. rewrite Hv. simpl.
  apply stake_share_le in Hv; lia.
Qed.
Lemma user_due_nonneg w c s a b h : StakeInv w c s -> SUser (w_now w) b -> fget a (s_rh s) = Some h -> 0 <= user_due h (s_tsh s) b.
Proof.
  intros I U Eh. apply zsum_nonneg. intros d _. unfold owing. destruct (fget d h) eqn:E1; [|lia]. destruct (fget d (s_tsh s)) eqn:E2; [|lia].
  eapply due_nonneg; eauto.
  - apply (sv_hist _ _ _ I _ _ Eh) in E1. lia.
  - apply (sv_tsh _ _ _ I) in E2. lia.
Qed.
(** nothing is owed for days up to the last withdrawal *)
Lemma user_due_claimed w c s a h l tot : StakeInv w c s -> fget a (s_rh s) = Some h -> user_due h (s_tsh s) (mkBonding l (w_now w) tot) = 0.
Proof.
  intros I Eh. unfold user_due. rewrite (zsum_ext _ (fun _ => 0)), zsum_zero; auto. intros d _. unfold owing.
  destruct (fget d h) eqn:E1; auto. destruct (fget d (s_tsh s)) eqn:E2; auto. unfold due. simpl.
  apply (sv_hist _ _ _ I _ _ Eh) in E1. destruct (Z.ltb_spec (w_now w) d); lia.
Qed.

(** changing one user *)
Lemma oblig_user s u b' all rt : oblig (set_s_total (set_s_users s (fset u b' (s_users s))) all) rt =
  oblig s rt + match fget rt (s_rh s) with Some h => user_due h (s_tsh s) b' - user_due h (s_tsh s) (s_user s u) | None => 0 end.
Proof.
  unfold oblig; simpl. destruct (fget rt (s_rh s)) as [h|]; [|lia]. rewrite user_fsum; [lia|].
  unfold user_due. rewrite (zsum_ext _ (fun _ => 0)), zsum_zero; auto. intros d _. unfold owing, due.
  destruct (fget d h); auto. destruct (fget d (s_tsh s)); auto. destruct (_ <? _); auto.
Qed.

Lemma bond_solv e c self u amt w w' s s' : SBond e c self u amt w w' s s' -> Good w -> 0 <= w_now w -> c <> Some self ->
  StakeInv w self s -> SolvInv w self s -> SolvInv w' self s'.
Proof.
  intros [B1 B2 B3 B4 B5 B6 [w1 [M Ew]] ->] G P N I V rt.
  pose proof (authed_ne _ _ _ _ _ _ G B1 N B3) as Ns. specialize (V rt).
  rewrite Ew. change (bal (set_stake w1 _) rt self) with (bal w1 rt self). rewrite (mv_bal _ _ _ _ _ _ M).
  destruct (Z.eqb_spec self u); [congruence|]. rewrite andb_false_r, Z.eqb_refl, andb_true_r. unfold ind at 1.
  rewrite oblig_user. unfold principal in *; simpl.
  match goal with |- context [match fget rt (s_rh s) with Some _ => _ | None => _ end] => 
    assert (Q : match fget rt (s_rh s) with
      | Some h => user_due h (s_tsh s) (mkBonding (b_stakes (s_user s u) ++ [mkStakeE amt (w_now w)]) (b_last (s_user s u)) (b_total (s_user s u) + amt)) -
         user_due h (s_tsh s) (s_user s u) | None => 0 end <= 0) end.
  { destruct (fget rt (s_rh s)) as [h|] eqn:Eh; [|lia].
    enough (user_due h (s_tsh s) (mkBonding (b_stakes (s_user s u) ++ [mkStakeE amt (w_now w)]) (b_last (s_user s u)) (b_total (s_user s u) + amt)) <=
         user_due h (s_tsh s) (s_user s u)) by lia.
    apply zsum_le. intros d _. unfold owing. destruct (fget d h) as [A|] eqn:E1; [|lia]. destruct (fget d (s_tsh s)) as [T|] eqn:E2; [|lia].
    unfold due; simpl. destruct (_ <? _); [|lia]. rewrite ksum_app. simpl. unfold due_of at 2. simpl.
    apply (sv_hist _ _ _ I _ _ Eh) in E1. destruct (Z.ltb_spec (w_now w) d); lia. }
  destruct (rt =? s_lp s); unfold ind; lia.
Qed.

Lemma unbond_solv e c self u amt ts w w' s s' l : SUnbond e c self u amt ts w w' s s' l -> Good w -> 0 <= w_now w -> c <> Some self ->
  StakeInv w self s -> SolvInv w self s -> SolvInv w' self s'.
Proof.
  intros [B1 B2 B3 B4 [w1 [M Ew]] ->] G P N I V rt.
  pose proof (authed_ne _ _ _ _ _ _ G B1 N B3) as Ns. specialize (V rt).
  destruct (remove_stake_ok _ _ _ _ B4) as [k [K1 [K2 [K3 [K4 [K5 K6]]]]]].
  pose proof (s_user_ok _ _ _ u I P) as Uu. pose proof (su_stakes _ _ Uu _ K1) as KP.
  rewrite Ew. change (bal (set_stake w1 _) rt self) with (bal w1 rt self). rewrite (mv_bal _ _ _ _ _ _ M).
  destruct (Z.eqb_spec self u); [congruence|]. rewrite andb_false_r, Z.eqb_refl, andb_true_r. unfold ind at 2.
  rewrite oblig_user. unfold principal in *; simpl.
  assert (Q : match fget rt (s_rh s) with
      | Some h => user_due h (s_tsh s) (mkBonding l (b_last (s_user s u)) (b_total (s_user s u) - amt)) -
         user_due h (s_tsh s) (s_user s u) | None => 0 end <= 0).
  { destruct (fget rt (s_rh s)) as [h|] eqn:Eh; [|lia].
    enough (user_due h (s_tsh s) (mkBonding l (b_last (s_user s u)) (b_total (s_user s u) - amt)) <=
         user_due h (s_tsh s) (s_user s u)) by lia.
    apply zsum_le. intros d _. unfold owing. destruct (fget d h) as [A|] eqn:E1; [|lia]. destruct (fget d (s_tsh s)) as [T|] eqn:E2; [|lia].
    unfold due; simpl. destruct (_ <? _); [|lia]. rewrite (K4 (due_of d A T)).
    assert (0 <= due_of d A T k); [|lia]. apply due_of_nonneg; [lia|..].
    - apply (sv_hist _ _ _ I _ _ Eh) in E1. lia.
    - apply (sv_tsh _ _ _ I) in E2. lia. }
  destruct (rt =? s_lp s); unfold ind; lia.
Qed.

Lemma flow_solv e c self u a w w' s s' : SFlow e c self u a w w' s s' -> StakeInv w self s -> SolvInv w self s -> SolvInv w' self s'.
Proof.
  intros [B1 B2 B3 B4 B5 -> ->] I V rt. specialize (V rt).
  change (bal (set_stake w _) rt self) with (bal w rt self). unfold principal, oblig in *; simpl. rewrite fget_set.
  destruct (Z.eqb_spec rt a); [|lia]. subst rt.
  assert (E : fget a (s_rh s) = None).
  { destruct (fget a (s_rh s)) eqn:E; auto. exfalso. apply B5, (sv_rh _ _ _ I). unfold fmem. rewrite E. auto. }
  rewrite E in V. rewrite (fsum_ext _ (fun _ => 0)), fsum_zero; [lia|]. intros; reflexivity.
Qed.

(** the total recorded for a time is not lowered by a second distribution at that time *)
Definition dist_ok (s : Stake) (t : Z) : Prop := forall T, fget t (s_tsh s) = Some T -> T <= s_total s.

Lemma fsum_shift {V} f g (a : V -> Z) m : (forall k v, In (k, v) m -> f v <= g v + a v) -> fsum f m <= fsum g m + fsum a m.
Proof. intros H. rewrite <- fsum_add. apply fsum_le. auto. Qed.

Lemma dist_due w c s h t A T b a : StakeInv w c s -> SUser (w_now w) b -> fget a (s_rh s) = Some h -> 0 <= A -> 0 <= T ->
  user_due (fset t A h) (fset t T (s_tsh s)) b <= user_due h (s_tsh s) b + due t A T b.
Proof.
  intros I U Eh PA PT. destruct (sv_hist _ _ _ I _ _ Eh) as [Sh Hh]. unfold user_due. rewrite zsum_keys_set.
  assert (Ow : owing (fset t A h) (fset t T (s_tsh s)) b t = due t A T b) by (unfold owing; rewrite !fget_set_same; auto).
  rewrite Ow. assert (Od : forall d, d <> t -> owing (fset t A h) (fset t T (s_tsh s)) b d = owing h (s_tsh s) b d).
  { intros d N. unfold owing. rewrite !fget_set_other by auto. auto. }
  pose proof (due_nonneg _ t A T b U PA PT) as DN.
  destruct (fmem t h) eqn:F.
  - assert (Q : zsum (fun d => if d =? t then due t A T b else 0) (fkeys h) = due t A T b).
    { eapply zsum_single; [eapply sorted_nodup; eauto|apply keys_mem; eauto|intros; reflexivity]. }
    rewrite <- Q. rewrite <- zsum_plus, Z.add_0_r. apply zsum_le. intros d Id. destruct (Z.eqb_spec d t).
    + subst d. rewrite Ow. unfold owing. unfold fmem in F. destruct (fget t h) as [A0|] eqn:E1; [|discriminate].
      destruct (fget t (s_tsh s)) as [T0|] eqn:E2; [|lia].
      pose proof (due_nonneg _ t A0 T0 b U (proj1 (proj1 (Hh _ _ E1))) (proj1 (proj1 (sv_tsh _ _ _ I _ _ E2)))). lia.
    + rewrite Od by auto. lia.
  - rewrite (zsum_ext _ (owing h (s_tsh s) b)); [lia|]. intros d Id. apply Od. intros ->. apply sorted_mem in Id; auto. congruence.
Qed.
Lemma dist_due_other w c s h t T b a : StakeInv w c s -> SUser (w_now w) b -> fget a (s_rh s) = Some h ->
  (forall T0, fget t (s_tsh s) = Some T0 -> T0 <= T /\ (T0 = 0 -> before t b = 0)) ->
  user_due h (fset t T (s_tsh s)) b <= user_due h (s_tsh s) b.
Proof.
  intros I U Eh K. destruct (sv_hist _ _ _ I _ _ Eh) as [Sh Hh]. apply zsum_le. intros d _. unfold owing.
  destruct (fget d h) as [A|] eqn:E1; [|lia]. rewrite fget_set. destruct (Z.eqb_spec d t) as [->|]; [|lia].
  destruct (Hh _ _ E1) as [PA [_ F]]. unfold fmem in F. destruct (fget t (s_tsh s)) as [T0|] eqn:E2; [|discriminate].
  destruct (K _ eq_refl) as [K1 K2]. destruct (sv_tsh _ _ _ I _ _ E2) as [PT _]. eapply due_anti; eauto; lia.
Qed.

Lemma fsum_zero_each {V} (f : V -> Z) m : (forall k v, In (k, v) m -> 0 <= f v) -> fsum f m <= 0 -> forall k v, In (k, v) m -> f v = 0.
Proof.
  induction m as [|[k v] m IH]; simpl; intros P L k' v' I; [tauto|].
  pose proof (P _ _ (or_introl eq_refl)). pose proof (fsum_nonneg f m (fun a b c => P a b (or_intror c))).
  destruct I as [E|I]; [inversion E; subst; lia|]. eapply IH; eauto. lia.
Qed.

Lemma dist_solv e c self u amt a w w' s s' h : SDist e c self u amt a w w' s s' h -> Good w -> 0 <= w_now w -> c <> Some self ->
  dist_ok s (w_now w) -> StakeInv w self s -> SolvInv w self s -> SolvInv w' self s'.
Proof.
  intros [B1 B2 B3 B4 B5 B6 M Es] G P N DO I V rt. specialize (V rt).
  pose proof (authed_ne _ _ _ _ _ _ G B1 N B3) as Ns.
  pose proof (mv_pos _ _ _ _ _ _ M). pose proof (sv_total _ _ _ I) as ST.
  rewrite !as_u128_pos in Es by lia.
  rewrite (mv_bal _ _ _ _ _ _ M). change (bal (set_stake w _) rt self) with (bal w rt self).
  destruct (Z.eqb_spec self u); [congruence|]. rewrite andb_false_r, Z.eqb_refl, andb_true_r. unfold ind at 1.
  rewrite Es. unfold principal, oblig in *; simpl. rewrite fget_set. destruct (Z.eqb_spec rt a).
  - subst rt. rewrite B6 in V. unfold ind.
    assert (Q : fsum (user_due (fset (w_now w) amt h) (fset (w_now w) (s_total s) (s_tsh s))) (s_users s) <=
      fsum (user_due h (s_tsh s)) (s_users s) + fsum (due (w_now w) amt (s_total s)) (s_users s)).
    { apply fsum_shift. intros k b Ib. eapply dist_due; eauto; try lia. eapply sv_user; eauto. }
    assert (Q2 : fsum (due (w_now w) amt (s_total s)) (s_users s) <= amt); [|eapply Z.le_trans; [apply Z.add_le_mono_l; exact Q|]; lia].
    destruct (Z.eq_dec (s_total s) 0) as [E0|E0].
    + rewrite (fsum_ext _ (fun _ => 0)), fsum_zero; [lia|]. intros k b Ib. unfold due. destruct (_ <? _); auto.
      rewrite (ksum_ext _ (fun _ => 0)). { clear. induction (b_stakes b); simpl; auto. }
      intros k' _. unfold due_of. rewrite E0, Zdiv_0_r. destruct (_ <? _); auto.
    + assert (Q3 : s_total s * fsum (due (w_now w) amt (s_total s)) (s_users s) <= amt * s_total s).
      { rewrite <- fsum_scale. transitivity (fsum (fun b => amt * before (w_now w) b) (s_users s)).
        - apply fsum_le. intros k b Ib. eapply due_scaled; [eapply sv_user; eauto|lia|lia].
        - rewrite fsum_scale. apply Z.mul_le_mono_nonneg_l; [lia|]. rewrite (sv_sum _ _ _ I). eapply before_total. eapply sv_user; eauto. }
      nia.
  - unfold ind. destruct (fget rt (s_rh s)) as [h2|] eqn:E2; [|lia].
    enough (fsum (user_due h2 (fset (w_now w) (s_total s) (s_tsh s))) (s_users s) <= fsum (user_due h2 (s_tsh s)) (s_users s)) by lia.
    apply fsum_le. intros k b Ib. eapply dist_due_other; eauto; [eapply sv_user; eauto|].
    intros T0 E0. split; [apply DO; auto|]. intros ->. destruct (sv_tsh _ _ _ I _ _ E0) as [_ [_ B0]].
    eapply (fsum_zero_each (before (w_now w)) (s_users s)); eauto.
    intros k2 b2 I2. apply (before_le (w_now w)). eapply sv_user; eauto.
Qed.

Lemma with_solv e self u w w' s s' : SWith e self u w w' s s' -> 0 <= w_now w ->
  StakeInv w self s -> SolvInv w self s -> SolvInv w' self s'.
Proof.
  intros [B1 B2 B3 [w1 [M Ew]] ->] P I V rt. specialize (V rt).
  pose proof (s_user_ok _ _ _ u I P) as Uu.
  match goal with |- context [set_s_users s ?m] => change (set_s_users s m) with (set_s_total (set_s_users s m) (s_total s)) end.
  rewrite oblig_user. unfold principal in *. simpl.
  rewrite Ew. change (bal (set_stake w1 _) rt self) with (bal w1 rt self). rewrite (pd_bal _ _ _ _ _ _ M). rewrite Z.eqb_refl, andb_true_r.
  destruct (zmem rt (s_dists s)) eqn:Z0.
  - apply zmem_in in Z0. pose proof (pd_pos _ _ _ _ _ _ M _ Z0) as PP. pose proof (B3 _ Z0) as Hp.
    pose proof (proj1 (sv_rh _ _ _ I rt) Z0) as F. unfold fmem in F. destruct (fget rt (s_rh s)) as [h|] eqn:Eh; [|discriminate].
    pose proof (pending_le _ _ _ _ _ _ _ I Uu Eh Hp). rewrite (user_due_claimed _ _ _ _ _ _ _ I Eh).
    unfold ind. simpl. destruct (self =? u); lia.
  - apply zmem_not_in in Z0. destruct (fget rt (s_rh s)) as [h|] eqn:Eh.
    + exfalso. apply Z0, (sv_rh _ _ _ I). unfold fmem. rewrite Eh. auto.
    + unfold ind; simpl. lia.
Qed.

Definition SolvAt (c : Addr) (w : World) : Prop := forall s, fget c (w_stake w) = Some s -> SolvInv w c s.
(** distributions that do not lower the total recorded for their time *)
Definition fair_dist (c : Addr) (w : World) (k : Call) : Prop :=
  match k with
  | CDistribute c' _ _ _ => c' = c -> forall s, fget c (w_stake w) = Some s -> dist_ok s (w_now w)
  | _ => True
  end.
Theorem solv_run H c w l w' : run_if (fair_dist c) H w l w' -> reachable H w -> SolvAt c w -> SolvAt c w'.
Proof.
  apply run_if_inv.
  - intros e k w1 w2 _ RC F X V s' Hs. pose proof (reach_wgood _ _ RC) as [G Nw _].
    destruct (exec_framec _ _ _ _ X G) as [G' [X' [En _]]].
    destruct (fget c (w_stake w1)) as [s|] eqn:E.
    + pose proof (reach_stake _ _ RC _ _ E) as I. destruct (stake_step _ _ _ _ _ _ X G E (sv_nodup _ _ _ I)) as [s2 [E2 St]].
      rewrite Hs in E2. inversion E2; subst s2. specialize (V _ E). destruct St; subst.
      * eapply bond_solv; eauto; try lia; try discriminate.
      * eapply unbond_solv; eauto; try lia; try discriminate.
      * eapply flow_solv; eauto.
      * eapply dist_solv; eauto; try lia; try discriminate; apply F; auto.
      * eapply with_solv; eauto. lia.
      * intros rt. specialize (V rt). match goal with K : forall t, bal w1 t c <= _ |- _ => specialize (K rt) end. lia.
    + destruct (stake_fresh _ _ _ _ _ _ X G E Hs) as [a [lp [mb [mr [m [o [mc [-> Pm]]]]]]]].
      intros rt. unfold principal, oblig; simpl. pose proof (good_bal w2 rt c G'). destruct (_ =? _); lia.
  - intros w1 n sq _ V s Hs rt. apply (V s Hs rt).
Qed.
