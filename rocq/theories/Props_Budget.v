(** C199-C201: how many ledger entries a call touches.  A transaction may touch a limited number
    of entries; [entries] counts the distinct entries of the record of a call. *)
From Coq Require Import ZArith List Bool Lia Arith.
From Coq Require Import ZifyBool.
From Verif Require Import Base FMap Decimal DecimalProofs Curve World Token TokenProofs Frame Stake Pool PoolProofs
  Stable StableProofs Rewards Vest Factory Router System SysFrame SysInv SysPool SysStable SysSupply
  SysVest SysStake SysRewards SysFact Script Runs Props_Token Props_Pool Props_Vest Props_Stake Props_Rewards Props_Factory
  Props_Live Props_LiveTok Props_LiveStake Props_PoolCases Props_RouterCases Props_StakeCases Props_VestCases.
From Verif Require Import Touch TouchErase Life TouchCover TouchGrow LifeLemmas TouchLogs TouchCost Props_Touch Props_Growth Props_TouchCases.
Import ListNotations.
Open Scope list_scope.
Open Scope Z_scope.

(** ** Records confined to a list of entries *)
Definition inside (F : list (Addr * Key)) (x : Touch) : Prop := In (entry_of x) F.
Ltac ins := repeat first
  [ progress cbv zeta
  | lazymatch goal with |- logs _ (match ?t with _ => _ end) => destruct t end
  | apply lg_tf; constructor | apply lg_ret; constructor | apply lg_lift; constructor | apply lg_guard; constructor | apply lg_fail
  | apply lg_note; cbn; repeat (apply Forall_cons; [unfold inside, entry_of; cbn; solve [auto 8] |]); solve [apply Forall_nil]
  | apply lg_bind; [intros; apply Forall_app; auto | | intros ?] ].
Lemma ins_transfer F e cc t f to a : In (t, YInst) F -> In (t, YBal f) F -> In (t, YBal to) F -> logs (Forall (inside F)) (z_transfer e cc t f to a).
Proof. intros A B C. unfold z_transfer, z_upd_tok, come. ins. Qed.
Lemma ins_le F D : Forall (inside F) D -> (entries D <= length F)%nat.
Proof. rewrite Forall_forall. intros H. apply entries_le. exact H. Qed.

(** a withdrawal of staking rewards *)
Definition withdraw_entries (c u : Addr) (l : list Addr) : list (Addr * Key) :=
  [(c, YInst); (c, YUser u); (c, YDists); (c, YTotHist)] ++
  flat_map (fun a => [(c, YHist a); (a, YInst); (a, YBal c); (a, YBal u)]) l.
Lemma ins_pay c u e s t b F l : In (c, YTotHist) F ->
  (forall a, In a l -> incl [(c, YHist a); (a, YInst); (a, YBal c); (a, YBal u)] F) ->
  logs (Forall (inside F)) (z_pay_rewards e c u s t b l).
Proof.
  intros T. induction l as [|a l IH]; intros A; cbn [z_pay_rewards]; [ins|].
  assert (B : incl [(c, YHist a); (a, YInst); (a, YBal c); (a, YBal u)] F) by (apply A; left; auto).
  apply lg_bind; [intros; apply Forall_app; auto|ins|intros p].
  apply lg_bind; [intros; apply Forall_app; auto| |intros _].
  { apply lg_note. assert (In (c, YHist a) F) by (apply B; simpl; auto). cbn.
    repeat (apply Forall_cons; [unfold inside, entry_of; cbn; assumption|]). apply Forall_nil. }
  apply lg_bind; [intros; apply Forall_app; auto| |intros _].
  { apply ins_transfer; apply B; simpl; auto. }
  apply IH. intros x I. apply A. right; auto.
Qed.
Lemma em_pay c u e s t b a l : In a l -> emits (mkT c (YHist a) Look) (z_pay_rewards e c u s t b l).
Proof.
  induction l as [|y l IH]; intros I; [destruct I|]. cbn [z_pay_rewards]. apply em_r; [logT|]. intros p.
  assert (LG : forall l, logs (fun _ => True) (z_pay_rewards e c u s t b l)).
  { intros l1. induction l1 as [|z1 l1 IH1]; cbn [z_pay_rewards]; [apply lg_ret; exact Logic.I|].
    apply (lg_bind (fun _ => True)); [auto|apply lg_lift; exact Logic.I|intros q].
    apply (lg_bind (fun _ => True)); [auto|apply lg_note; exact Logic.I|intros _].
    apply (lg_bind (fun _ => True)); [auto|unfold z_transfer, z_upd_tok, come; logTs|intros _; exact IH1]. }
  destruct I as [->|I].
  - apply em_l; [apply em_note; simpl; auto|]. intros _.
    apply (lg_bind (fun _ => True)); [auto|unfold z_transfer, z_upd_tok, come; logTs|intros _; apply LG].
  - apply em_r; [apply lg_note; exact Logic.I|]. intros _. apply em_r; [unfold z_transfer, z_upd_tok, come; logTs|]. intros _. auto.
Qed.
Lemma withdraw_shape e c u w s w' D : fget c (w_stake w) = Some s -> zexec e (CWithdrawRewards c u) (w, []) = Ok (tt, (w', D)) ->
  Forall (inside (withdraw_entries c u (s_dists s))) D /\ (forall a, In a (s_dists s) -> In (mkT c (YHist a) Look) D).
Proof.
  intros E Z. cbn [zexec] in Z. unfold z_stake_withdraw_rewards, z_get_stake in Z.
  apply mbind_ok in Z as (a0 & s0 & Z0 & Z). apply tf_inv in Z0 as (w0 & Z0 & ->). apply enter_ok in Z0 as [_ ->].
  apply mbind_ok in Z as (a1 & s1 & Z1 & Z). apply note_inv in Z1. subst s1.
  apply mbind_ok in Z as (x0 & s4 & Z4 & Z).
  apply mbind_ok in Z4 as (x1 & s5 & Z5 & Z4). apply tf_inv in Z5 as (w5 & Z5 & ->). apply get_stake_ok in Z5 as [E5 ->].
  assert (x1 = s) by congruence. subst x1.
  apply mbind_ok in Z4 as (a6 & s6 & Z6 & Z4). apply note_inv in Z6. subst s6. inversion Z4; subst. clear Z4.
  set (F := withdraw_entries c u (s_dists x0)).
  assert (FI : forall a, In a (s_dists x0) -> incl [(c, YHist a); (a, YInst); (a, YBal c); (a, YBal u)] F).
  { intros a I y J. unfold F, withdraw_entries. apply in_or_app. right. apply in_flat_map. exists a. split; auto. }
  assert (F1 : In (c, YInst) F) by (unfold F, withdraw_entries; simpl; auto).
  assert (F2 : In (c, YUser u) F) by (unfold F, withdraw_entries; simpl; auto).
  assert (F3 : In (c, YDists) F) by (unfold F, withdraw_entries; simpl; auto).
  assert (F4 : In (c, YTotHist) F) by (unfold F, withdraw_entries; simpl; auto).
  match type of Z with ?m (w, ?q) = _ => assert (LM : logs (Forall (inside F)) m) end.
  { apply lg_bind; [intros; apply Forall_app; auto|ins|intros _]. apply lg_bind; [intros; apply Forall_app; auto|ins|intros t]. cbv zeta.
    apply lg_bind; [intros; apply Forall_app; auto|apply ins_pay; auto|intros _]. unfold z_put_stake. ins. }
  destruct (logs_inv _ _ _ _ _ _ LM Z) as (w9 & D9 & E9 & I9). inversion E9; subst. split.
  - cbn. repeat (apply Forall_cons; [exact F1|]). exact I9.
  - intros a I.
    match type of Z with ?m (w, ?q) = _ => assert (EM : emits (mkT c (YHist a) Look) m) end.
    { apply em_r; [logT|]. intros _. apply em_r; [logT|]. intros t. cbv zeta. apply em_l; [apply em_pay; exact I|intros _; unfold z_put_stake; logTs]. }
    destruct (logs_inv _ _ _ _ _ _ EM Z) as (w8 & D8 & E8 & I8). inversion E8; subst.
    right. right. exact I8.
Qed.
Lemma withdraw_least e c u w s w' D : fget c (w_stake w) = Some s -> NoDup (s_dists s) ->
  zexec e (CWithdrawRewards c u) (w, []) = Ok (tt, (w', D)) -> (length (s_dists s) <= entries D)%nat.
Proof.
  intros E ND Z. destruct (withdraw_shape _ _ _ _ _ _ _ E Z) as [_ A].
  rewrite <- (map_length (fun a => (c, YHist a))). apply NoDup_incl_length.
  - apply FinFun.Injective_map_NoDup; auto. intros x y Q. congruence.
  - intros y I. apply in_map_iff in I as (a & <- & I). apply (entries_in _ _ (A a I)).
Qed.
Lemma withdraw_most e c u w s w' D : fget c (w_stake w) = Some s ->
  zexec e (CWithdrawRewards c u) (w, []) = Ok (tt, (w', D)) -> (entries D <= 4 + 4 * length (s_dists s))%nat.
Proof.
  intros E Z. destruct (withdraw_shape _ _ _ _ _ _ _ E Z) as [A _]. apply ins_le in A. unfold withdraw_entries in A.
  rewrite app_length in A. cbn [length] in A.
  assert (Q : forall l, length (flat_map (fun a => [(c, YHist a); (a, YInst); (a, YBal c); (a, YBal u)]) l) = (4 * length l)%nat).
  { induction l as [|a l IH]; simpl; [reflexivity|]. simpl in IH. rewrite IH. lia. }
  rewrite Q in A. lia.
Qed.

(** the creation of vesting schedules *)
Lemma indices_len n : forall i, length (indices n i) = n.
Proof. induction n as [|n IH]; intros i; simpl; auto. Qed.
Lemma indices_in n : forall i j, In j (indices n i) <-> i <= j < i + Z.of_nat n.
Proof.
  induction n as [|n IH]; intros i j; cbn [indices In]; [lia|]. rewrite IH. lia.
Qed.
Lemma indices_nodup n : forall i, NoDup (indices n i).
Proof.
  induction n as [|n IH]; intros i; cbn [indices]; constructor; auto. rewrite indices_in. lia.
Qed.
Definition held (v : Vest) (x : Addr * curve) : nat := S (length (v_entries v (fst x))).
Definition asked_of (v : Vest) (x : Addr * curve) : list Key := map (YVest (fst x)) (indices (held v x) 0).
Lemma saved_other v u c x : x <> u -> v_entries (saved v u c) x = v_entries v x.
Proof. intros N. unfold saved, save_vesting, v_entries. cbv zeta. simpl. rewrite fgetd_set. destruct (Z.eqb_spec x u); [contradiction|reflexivity]. Qed.
Lemma free_len v u : dense (v_entries v u) -> free_index v u = Z.of_nat (length (v_entries v u)).
Proof. intros D. unfold free_index. apply first_free_dense. exact D. Qed.
Lemma asked_flat l : forall v, (forall u, In u (map fst l) -> dense (v_entries v u)) -> no_dup (map fst l) = true -> asked v l = flat_map (asked_of v) l.
Proof.
  induction l as [|[u c] l IH]; intros v Dn ND; [reflexivity|]. cbn [asked flat_map]. simpl in ND. apply andb_true_iff in ND as [N1 N2].
  assert (NI : forall x, In x (map fst l) -> x <> u).
  { intros x I ->. apply negb_true_iff in N1. unfold zmem in N1. rewrite <- not_true_iff_false in N1. apply N1. apply existsb_exists. exists u. split; auto. apply Z.eqb_refl. }
  f_equal.
  - unfold asked_of, held. cbn [fst]. rewrite free_len by (apply Dn; simpl; auto). rewrite Nat2Z.id. reflexivity.
  - rewrite IH; auto.
    + rewrite !flat_map_concat_map. f_equal. apply map_ext_in. intros y I. unfold asked_of, held. rewrite saved_other; [reflexivity|]. apply NI. now apply in_map.
    + intros x I. rewrite saved_other by (apply NI; auto). apply Dn. simpl. auto.
Qed.
Lemma asked_len v l : length (flat_map (asked_of v) l) = list_sum (map (held v) l).
Proof. induction l as [|x l IH]; [reflexivity|]. cbn [flat_map map list_sum fold_right]. rewrite app_length, IH. unfold asked_of. now rewrite map_length, indices_len. Qed.
Lemma asked_nodup v l : NoDup (map fst l) -> NoDup (flat_map (asked_of v) l).
Proof.
  induction l as [|x l IH]; intros ND; [constructor|]. cbn [flat_map]. simpl in ND. inversion ND as [|? ? N1 N2]; subst.
  assert (Q : forall A (a b : list A), NoDup a -> NoDup b -> (forall y, In y a -> ~ In y b) -> NoDup (a ++ b)).
  { intros A a b Ha Hb Hd. induction Ha as [|y a Ny Ha IHa]; simpl; auto. constructor.
    - rewrite in_app_iff. intros [K|K]; [auto|]. apply (Hd y); simpl; auto.
    - apply IHa. intros z I. apply Hd. simpl; auto. }
  apply Q; auto.
  - unfold asked_of. apply FinFun.Injective_map_NoDup; [|apply indices_nodup]. intros a b E. congruence.
  - intros y I J. unfold asked_of in I. apply in_map_iff in I as (i & <- & I). apply in_flat_map in J as (z & J & K).
    unfold asked_of in K. apply in_map_iff in K as (k & K & _). inversion K as [[E1 E2]]. apply N1. rewrite <- E1. now apply in_map.
Qed.
Lemma no_dup_NoDup l : no_dup l = true -> NoDup l.
Proof.
  induction l as [|x l IH]; intros H; [constructor|]. simpl in H. apply andb_true_iff in H as [A B]. constructor; auto.
  intros I. apply negb_true_iff in A. unfold zmem in A. rewrite <- not_true_iff_false in A. apply A. apply existsb_exists. exists x. split; auto. apply Z.eqb_refl.
Qed.
Lemma created_asked l : forall v, (forall u, In u (map fst l) -> dense (v_entries v u)) -> no_dup (map fst l) = true -> incl (created v l) (asked v l).
Proof.
  induction l as [|[u c] l IH]; intros v Dn ND y I; [destruct I|]. cbn [created asked] in *. simpl in ND. apply andb_true_iff in ND as [N1 N2].
  apply in_or_app. destruct I as [<-|I].
  - left. apply in_map. apply indices_in. rewrite free_len by (apply Dn; simpl; auto). rewrite Nat2Z.id. lia.
  - right. apply IH; auto. intros x J. rewrite saved_other; [apply Dn; simpl; auto|]. intros ->.
    apply negb_true_iff in N1. unfold zmem in N1. rewrite <- not_true_iff_false in N1. apply N1. apply existsb_exists. exists u. split; auto. apply Z.eqb_refl.
Qed.
Definition create_entries (c : Addr) (v : Vest) (l : list (Addr * curve)) : list (Addr * Key) :=
  [(c, YInst); (c, YAdmin); (v_token v, YInst); (v_token v, YBal (v_admin v)); (v_token v, YBal c)] ++ map (pair c) (asked v l).
Lemma create_shape e c l w v w' D : fget c (w_vest w) = Some v -> (forall u, dense (v_entries v u)) ->
  zexec e (CVestCreate c l) (w, []) = Ok (tt, (w', D)) -> Forall (inside (create_entries c v l)) D.
Proof.
  intros E Dn Z. destruct (vest_create_asks _ _ _ _ _ _ _ Z E) as [ND _]. cbn [zexec] in Z. unfold z_vest_create, z_get_vest in Z.
  apply mbind_ok in Z as (a0 & s0 & Z0 & Z). apply tf_inv in Z0 as (w0 & Z0 & ->). apply enter_ok in Z0 as [_ ->].
  apply mbind_ok in Z as (a1 & s1 & Z1 & Z). apply note_inv in Z1. subst s1.
  apply mbind_ok in Z as (a2 & s2 & Z2 & Z). apply note_inv in Z2. subst s2.
  apply mbind_ok in Z as (a3 & s3 & Z3 & Z). apply mguard_ok in Z3 as [_ Z3]. inversion Z3; subst.
  apply mbind_ok in Z as (x0 & s4 & Z4 & Z).
  apply mbind_ok in Z4 as (x1 & s5 & Z5 & Z4). apply tf_inv in Z5 as (w5 & Z5 & ->). apply get_vest_ok in Z5 as [E5 ->].
  assert (x1 = v) by congruence. subst x1.
  apply mbind_ok in Z4 as (a6 & s6 & Z6 & Z4). apply note_inv in Z6. subst s6. inversion Z4; subst. clear Z4.
  set (F := create_entries c x0 l).
  assert (F1 : In (c, YInst) F) by (unfold F, create_entries; simpl; auto).
  assert (F2 : In (c, YAdmin) F) by (unfold F, create_entries; simpl; auto).
  assert (F3 : In (v_token x0, YInst) F) by (unfold F, create_entries; simpl; auto).
  assert (F4 : In (v_token x0, YBal (v_admin x0)) F) by (unfold F, create_entries; simpl; auto).
  assert (F5 : In (v_token x0, YBal c) F) by (unfold F, create_entries; simpl; auto 8).
  assert (FA : forall k, In k (asked x0 l) -> In (c, k) F) by (intros k I; unfold F, create_entries; apply in_or_app; right; now apply in_map).
  match type of Z with ?m (w, ?q) = _ => assert (LM : logs (Forall (inside F)) m) end.
  { do 3 (apply lg_bind; [intros; apply Forall_app; auto|ins|intros ?]).
    apply lg_bind; [intros; apply Forall_app; auto|ins|intros [v' tot]].
    apply lg_bind; [intros; apply Forall_app; auto|unfold z_balance, come; ins|intros bal].
    do 2 (apply lg_bind; [intros; apply Forall_app; auto|ins|intros ?]).
    apply lg_bind; [intros; apply Forall_app; auto| |intros _].
    { apply lg_note. apply Forall_forall. intros y I. apply in_map_iff in I as (k & <- & I). apply FA. exact I. }
    apply lg_bind; [intros; apply Forall_app; auto| |intros _].
    { unfold z_put_vest. apply lg_bind; [intros; apply Forall_app; auto|ins|intros _]. apply lg_note. apply Forall_forall. intros y I.
      apply in_flat_map in I as (k & I & J). assert (In (c, k) F) by (apply FA; apply created_asked; auto).
      destruct J as [<-|[<-|[]]]; assumption. }
    apply ins_transfer; auto. }
  destruct (logs_inv _ _ _ _ _ _ LM Z) as (w9 & D9 & E9 & I9). inversion E9; subst.
  cbn. repeat (apply Forall_cons; [first [exact F1|exact F2]|]). exact I9.
Qed.

(** ** C199: all but three calls touch at most thirty entries, whatever the state *)
Theorem C199_calls_touch_few_entries e k w w' D : looping k = false ->
  zexec e k (w, []) = Ok (tt, (w', D)) -> (entries D <= 30)%nat.
Proof. intros L X. eapply (logs_zexec (fun D => entries D <= 30)%nat); [|exact X]. apply cost_zexec; exact L. Qed.
Print Assumptions C199_calls_touch_few_entries.
(** a swap of the pool of Props_PoolCases makes forty-two accesses to eleven entries, a deposit touches fourteen *)
Definition tprov : Call := CPoolProvide 10 (-2) (Some 500) None (Some 1000) None None None.
Example C199_example : works [-4] tswap xW = true /\ length (record [-4] tswap xW) = 42%nat /\ entries (record [-4] tswap xW) = 11%nat /\
  works [-2] tprov xW = true /\ entries (record [-2] tprov xW) = 14%nat /\ looping tswap = false /\ looping tprov = false.
Proof. vm_compute. repeat split. Qed.

(** ** C200: the three loops *)
(** a withdrawal touches the history, the token and both balances of every reward token *)
Theorem C200_withdraw_rewards_entries H w e c s u w' D : reachable H w -> stake_at w c s ->
  zexec e (CWithdrawRewards c u) (w, []) = Ok (tt, (w', D)) ->
  (length (s_dists s) <= entries D <= 4 + 4 * length (s_dists s))%nat.
Proof.
  intros R E X. pose proof (sv_nodup _ _ _ (reach_stake _ _ R _ _ E)) as ND. split.
  - apply (withdraw_least e c u w s w' D); auto.
  - apply (withdraw_most e c u w s w' D); auto.
Qed.
Print Assumptions C200_withdraw_rewards_entries.
(** two reward tokens *)
Example C200_example : works [] (CWithdrawRewards 20 (-2)) (world_of s1) = true /\ length (s_dists sS1) = 2%nat /\
  entries (record [] (CWithdrawRewards 20 (-2)) (world_of s1)) = 12%nat.
Proof. vm_compute. repeat split. Qed.

(** a route touches at most two entries and twenty-two per leg *)
Theorem C200_route_entries e h u ops ms a dl mf w w' D :
  zexec e (CHopSwap h u ops ms a dl mf) (w, []) = Ok (tt, (w', D)) -> (entries D <= 2 + 22 * length ops)%nat.
Proof.
  intros X. eapply (logs_zexec (fun D => entries D <= 2 + 22 * length ops)%nat); [|exact X]. simpl.
  unfold z_drop. apply (cost_bind (2 + 22 * length ops) 0); [apply cost_hop_swap|lia|intros; apply cost_ret].
Qed.
Print Assumptions C200_route_entries.
Example C200_route_example : works [-4] (CHopSwap rhop (-4) rops None 10000 None None) rW = true /\ length rops = 2%nat /\
  entries (record [-4] (CHopSwap rhop (-4) rops None 10000 None None) rW) = 21%nat.
Proof. vm_compute. repeat split. Qed.

(** creating schedules touches one entry for every schedule the recipients have already, one for
    each new one, and five more *)
Theorem C200_vest_create_entries H w e c v l w' D : reachable H w -> vest_at w c v ->
  zexec e (CVestCreate c l) (w, []) = Ok (tt, (w', D)) ->
  let n := list_sum (map (fun x => S (length (v_entries v (fst x)))) l) in (n <= entries D <= 5 + n)%nat.
Proof.
  intros R E Z. pose proof (vv_dense _ _ _ (reach_vest _ _ R _ _ E)) as Dn.
  destruct (vest_create_asks _ _ _ _ _ _ _ Z E) as [ND A]. pose proof (asked_flat l v (fun u _ => Dn u) ND) as Fl.
  cbv zeta. change (fun x : Addr * curve => S (length (v_entries v (fst x)))) with (held v). rewrite <- asked_len, <- Fl. split.
  - rewrite <- (map_length (pair c)). apply NoDup_incl_length.
    + apply FinFun.Injective_map_NoDup; [intros x y Q; congruence|]. rewrite Fl. apply asked_nodup, no_dup_NoDup, ND.
    + intros y I. apply in_map_iff in I as (k & <- & I). apply (entries_in _ _ (A k I)).
  - pose proof (ins_le _ _ (create_shape _ _ _ _ _ _ _ E Dn Z)) as L. unfold create_entries in L. rewrite app_length, map_length in L. exact L.
Qed.
Print Assumptions C200_vest_create_entries.
(** a third schedule for one holder *)
Example C200_create_example : works [-1] (CVestCreate 30 [(-5, vlin)]) (world_of v2) = true /\
  length (v_entries (vV 750 600 600) (-5)) = 2%nat /\ entries (record [-1] (CVestCreate 30 [(-5, vlin)]) (world_of v2)) = 8%nat.
Proof. vm_compute. repeat split. Qed.

(** ** C201 fails: no number of entries suffices for every call *)
(** the manager may add any number of reward tokens *)
Definition base20 : list Script.Act := [Do [] (CDeployTok 1 (-1) 7); Do [] (CDeploy 20 KStake); Do [] (CStakeInit 20 (-1) 1 10 5 (-1) (-9) 10)].
Record Many (n : nat) (w : World) (s : Stake) : Prop := {
  my_reach : reachable xH w;
  my_stake : stake_at w 20 s;
  my_manager : s_manager s = -1;
  my_len : length (s_dists s) = n;
  my_flow : forall a, In a (s_dists s) -> 100 <= a < 100 + Z.of_nat n /\ is_tok w a /\ fget a (s_rh s) = Some fempty;
  my_free : forall a, 100 + Z.of_nat n <= a -> fget a (w_code w) = None }.
Lemma many_flows n : exists w s, Many n w s.
Proof.
  induction n as [|n [w [s [A B C D E F]]]].
  - exists (world_of base20), (mkStake 1 10 5 (-1) (-9) 10 (-1) 0 fempty fempty [] fempty). constructor; auto.
    + apply world_reach. vm_compute. reflexivity.
    + vm_compute. reflexivity.
    + intros a [].
    + intros a L. assert (Ew : w_code (world_of base20) = fset 1 KTok (fset 20 KStake fempty)) by (vm_compute; reflexivity).
      rewrite Ew. rewrite !fget_set_other by lia. reflexivity.
  - set (t := 100 + Z.of_nat n). set (k := mkToken (-1) 7 fempty fempty 0 0).
    set (w1 := set_tok (set_code w (fset t KTok (w_code w))) (fset t k (w_tok w))).
    set (s2 := set_s_dists s (s_dists s ++ [t]) (fset t fempty (s_rh s))).
    set (w2 := set_stake w1 (fset 20 s2 (w_stake w1))).
    assert (Ft : fget t (w_code w) = None) by (apply F; unfold t; lia).
    assert (X1 : exec (env_of []) (CDeployTok t (-1) 7) w = Ok (tt, w1)).
    { simpl. unfold tok_deploy. rewrite (run_bind _ _ _ tt (set_code w (fset t KTok (w_code w)))).
      - reflexivity.
      - unfold deploy. rewrite (run_bind _ _ _ w w) by reflexivity. rewrite (run_bind _ _ _ tt w); [reflexivity|].
        apply run_guard. unfold fmem. rewrite Ft. unfold t. destruct (Z.leb_spec 0 (100 + Z.of_nat n)); [reflexivity|lia]. }
    assert (S1 : stake_at w1 20 s) by exact B.
    pose proof (gd_cstake _ (reach_good _ _ A) _ _ B) as Hc.
    assert (Nt : ~ In t (s_dists s)) by (intros I; apply E in I; unfold t in I; lia).
    assert (X2 : exec (env_of [-1]) (CFlow 20 (-1) t) w1 = Ok (tt, w2)).
    { simpl. unfold stake_create_flow.
      rewrite (run_bind _ _ _ tt w1) by (apply run_enter; unfold w1; simpl; rewrite fget_set_other by (unfold t; lia); exact Hc).
      rewrite (run_bind _ _ _ tt w1) by (apply run_auth; reflexivity).
      rewrite (run_bind _ _ _ s w1) by (apply run_get_stake; exact S1).
      rewrite (run_bind _ _ _ tt w1) by (apply run_guard; rewrite C; reflexivity).
      rewrite (run_bind _ _ _ tt w1); [reflexivity|]. apply run_guard. apply negb_true_iff. destruct (zmem t (s_dists s)) eqn:Q; auto.
      apply zmem_in in Q. contradiction. }
    exists w2, s2. constructor.
    + refine (reach_tx _ _ (env_of [-1]) _ _ _ _ X2); [|intros; reflexivity]. refine (reach_tx _ _ (env_of []) _ _ A _ X1). intros; reflexivity.
    + unfold stake_at, w2. simpl. apply fget_set_same.
    + exact C.
    + simpl. rewrite app_length, D. simpl. lia.
    + intros a I. simpl in I. apply in_app_or in I as [I|[<-|[]]].
      * destruct (E a I) as [E1 [[q E2] E3]]. split; [lia|]. split.
        { exists q. unfold w2, w1. simpl. rewrite fget_set_other by (unfold t; lia). exact E2. }
        { simpl. rewrite fget_set_other by (unfold t; lia). exact E3. }
      * split; [unfold t; lia|]. split; [exists k; unfold w2, w1; simpl; apply fget_set_same|simpl; apply fget_set_same].
    + intros a L. unfold w2, w1. simpl. rewrite fget_set_other by (unfold t; lia). apply F. lia.
Qed.
Lemma query_zero s t b l : (forall a, In a l -> fget a (s_rh s) = Some fempty) -> query_pending s t b l = Ok (map (fun a => (a, 0)) l).
Proof.
  induction l as [|a l IH]; intros A; [reflexivity|]. cbn [query_pending]. unfold pending_rewards. rewrite (A a) by (simpl; auto).
  rewrite IH by (intros; apply A; simpl; auto). reflexivity.
Qed.
Lemma withdrawals_of_any_size : forall N, exists w e k w' D,
  reachable xH w /\ zexec e k (w, []) = Ok (tt, (w', D)) /\ (N <= entries D)%nat.
Proof.
  intros N. destruct (many_flows N) as [w [s [A B C D E F]]].
  assert (X : exists w', stake_withdraw_rewards (env_of []) 20 (-2) w = Ok (tt, w')).
  { apply (proj2 (C137_withdraw_rewards_succeeds_iff xH w (env_of []) 20 s (-2) A B)).
    exists (map (fun a => (a, 0)) (s_dists s)). split.
    - unfold stake_query_rewards. pose proof (gd_cstake _ (reach_good _ _ A) _ _ B) as Hc.
      rewrite (run_bind _ _ _ tt w) by (apply run_enter; exact Hc). rewrite (run_bind _ _ _ s w) by (apply run_get_stake; exact B).
      rewrite (run_bind _ _ _ (w_now w) w) by reflexivity. apply run_lift. apply query_zero. intros a I. apply E. exact I.
    - intros a v I. apply in_map_iff in I as (x & Q & I). inversion Q; subst. split; [apply E; exact I|].
      pose proof (C04_balance_range_system xH w a 20 A). pose proof (C04_balance_range_system xH w a (-2) A). split; [lia|right; lia]. }
  destruct X as [w' X]. change (exec (env_of []) (CWithdrawRewards 20 (-2)) w = Ok (tt, w')) in X.
  apply (proj1 (C184_recording_accesses_changes_nothing _ _ _)) in X. destruct X as [Dd X].
  exists w, (env_of []), (CWithdrawRewards 20 (-2)), w', Dd. split; [exact A|]. split; [exact X|]. rewrite <- D.
  apply (C200_withdraw_rewards_entries _ _ _ _ _ _ _ _ A B X).
Qed.
Theorem C201_calls_touch_boundedly_many_entries_refuted :
  ~ (exists N, forall H w e k w' D, reachable H w -> zexec e k (w, []) = Ok (tt, (w', D)) -> (entries D <= N)%nat).
Proof.
  intros [N B]. destruct (withdrawals_of_any_size (S N)) as (w & e & k & w' & D & R & X & L). specialize (B _ _ _ _ _ _ R X). lia.
Qed.
Print Assumptions C201_calls_touch_boundedly_many_entries_refuted.
(** one of the worlds of the proof: with three reward tokens a withdrawal touches sixteen entries *)
Example C201_example : let l := base20 ++ concat (map (fun a => [Do [] (CDeployTok a (-1) 7); Do [-1] (CFlow 20 (-1) a)]) [100; 101; 102]) in
  reachable xH (world_of l) /\ works [] (CWithdrawRewards 20 (-2)) (world_of l) = true /\
  entries (record [] (CWithdrawRewards 20 (-2)) (world_of l)) = 16%nat.
Proof. split; [apply world_reach|]; vm_compute; auto. Qed.
