(** The vesting invariant holds for every vesting contract in every reachable ledger. *)
From Coq Require Import ZArith List Bool Lia.
From Coq Require Import ZifyBool.
From Verif Require Import Base FMap Decimal DecimalProofs Curve CurveProofs World Token TokenProofs Frame Stake Pool PoolProofs
  Stable StableProofs Rewards Vest Factory Router System SysFrame SysInv SysPool.
Import ListNotations.
Open Scope Z_scope.

(** ** Maps *)
Lemma fset_length {V} k (v : V) m : fget k m = None -> length (fset k v m) = S (length m).
Proof.
  induction m as [|[k' v'] tl IH]; simpl; auto. destruct (k <? k'); auto. destruct (k =? k'); [discriminate|].
  intros H. simpl. rewrite IH; auto.
Qed.
Lemma fset_length_mem {V} k (v u : V) m : fget k m = Some u -> length (fset k v m) = length m.
Proof.
  induction m as [|[k' v'] tl IH]; simpl; [discriminate|]. destruct (k <? k'); [discriminate|]. destruct (k =? k'); simpl; auto.
Qed.

(** indexes 0 .. n-1 *)
Definition dense {V} (m : fmap V) : Prop := forall i, fmem i m = true <-> 0 <= i < Z.of_nat (length m).
Lemma first_free_dense m : dense m -> first_free (S (length m)) 0 m = Z.of_nat (length m).
Proof.
  intros D.
  assert (G : forall f i, 0 <= i <= Z.of_nat (length m) -> Z.of_nat (length m) - i < Z.of_nat f -> first_free f i m = Z.of_nat (length m)).
  { induction f as [|f IH]; intros i Hi Hf; [lia|]. simpl. destruct (fmem i m) eqn:E.
    - apply D in E. apply IH; lia.
    - assert (~ (0 <= i < Z.of_nat (length m))) by (intros K; apply D in K; congruence). lia. }
  apply G; lia.
Qed.
Lemma dense_add {V} m (x : V) : dense m -> dense (fset (Z.of_nat (length m)) x m).
Proof.
  intros D. set (n := Z.of_nat (length m)).
  assert (N : fget n m = None).
  { destruct (fget n m) eqn:E; auto. exfalso.
    assert (F : fmem n m = true) by (unfold fmem; rewrite E; auto). apply D in F. lia. }
  intros i. rewrite fmem_set, fset_length by auto.
  destruct (Z.eqb_spec i n); simpl; [subst; unfold n; split; intros; auto; lia|]. rewrite (D i). unfold n in *. lia.
Qed.
Lemma dense_put {V} m i (x u : V) : fget i m = Some u -> dense m -> dense (fset i x m).
Proof.
  intros E D j. rewrite fmem_set. rewrite (fset_length_mem i x u) by auto.
  destruct (Z.eqb_spec j i); simpl; [|apply D]. subst. split; intros; auto. apply D. unfold fmem. rewrite E. auto.
Qed.
Lemma dense_empty {V} : dense (@fempty V).
Proof. intros i. unfold fmem; simpl. split; [discriminate|lia]. Qed.

(** ** What is still owed *)
Definition owed (v : Vest) : Z := fsum (fun m => fsum vi_bal m) (v_ent v).
Definition nonneg_ents (v : Vest) : Prop := forall u m i x, In (u, m) (v_ent v) -> In (i, x) m -> 0 <= vi_bal x.

Lemma entries_in v u i x : In (i, x) (v_entries v u) -> exists m, In (u, m) (v_ent v) /\ In (i, x) m.
Proof.
  unfold v_entries, fgetd. destruct (fget u (v_ent v)) as [m|] eqn:E; [|simpl; tauto].
  intros I. exists m. split; auto. apply fget_in; auto.
Qed.
Definition with_ent (v : Vest) (u i : Z) (x : VInfo) : Vest := set_v_ent v (fset u (fset i x (v_entries v u)) (v_ent v)).
Lemma v_put_with v u i x : v_put v u i x = with_ent v u i x. Proof. reflexivity. Qed.

Lemma entries_with v u i x u' : v_entries (with_ent v u i x) u' = if u' =? u then fset i x (v_entries v u) else v_entries v u'.
Proof. unfold v_entries at 1, with_ent; simpl. apply fgetd_set. Qed.
Lemma owed_with v u i x : owed (with_ent v u i x) =
  owed v - match fget i (v_entries v u) with Some y => vi_bal y | None => 0 end + vi_bal x.
Proof.
  unfold owed, with_ent; simpl. rewrite fsum_set, fsum_set. unfold v_entries, fgetd.
  destruct (fget u (v_ent v)); simpl; lia.
Qed.
Lemma nonneg_with v u i x : nonneg_ents v -> 0 <= vi_bal x -> nonneg_ents (with_ent v u i x).
Proof.
  intros N P u' m i' x' I1 I2. unfold with_ent in I1; simpl in I1. apply fset_in in I1. destruct I1 as [E|I1]; [|eauto].
  inversion E; subst. apply fset_in in I2. destruct I2 as [E2|I2]; [inversion E2; subst; auto|].
  apply entries_in in I2. destruct I2 as [m [I2 I3]]. eauto.
Qed.
Lemma owed_nonneg v : nonneg_ents v -> 0 <= owed v.
Proof. intros N. apply fsum_nonneg. intros u m I1. apply fsum_nonneg. intros i x I2. eapply N; eauto. Qed.
Lemma owed_ge v u i x : nonneg_ents v -> fget i (v_entries v u) = Some x -> vi_bal x <= owed v.
Proof.
  intros N E.
  assert (O : 0 <= owed (with_ent v u i (mkVInfo 0 (vi_rcpt x) (vi_sched x)))) by (apply owed_nonneg, nonneg_with; simpl; auto; lia).
  rewrite owed_with, E in O. simpl in O. lia.
Qed.

(** ** Entries *)
Lemma typed_wf c : typed_curve c = true -> wf_curve c.
Proof.
  destruct c as [y|a b d f|l]; simpl; unfold in_u64, in_u128.
  - lia.
  - unfold wf_step; simpl. lia.
  - intros H. rewrite forallb_forall in H. apply Forall_forall. intros x I. specialize (H x I).
    unfold typed_step, in_u64, in_u128 in H. unfold wf_step. lia.
Qed.

(** at time 0 everything is locked *)
Lemma schedule_start c T : typed_curve c = true -> validate_schedule c = Ok T -> cvalue c 0 = Ok T /\ validate_dec c = None.
Proof.
  intros Ty H. apply typed_wf in Ty. unfold validate_schedule in H. destruct (validate_dec c) eqn:V; [discriminate|].
  split; [|reflexivity]. destruct c as [y|a b d f|l]; [discriminate| |].
  - destruct (f =? 0) eqn:F; [|discriminate]. inversion H; subst b. apply Z.eqb_eq in F. subst f.
    simpl in *. unfold sl_validate in V. destruct (Z.leb_spec d a); [discriminate|]. destruct (Z.ltb_spec T 0); [discriminate|].
    unfold wf_step in Ty; simpl in Ty.
    unfold sl_value. destruct (Z.ltb_spec 0 a); [reflexivity|]. destruct (Z.ltb_spec d 0); [lia|].
    assert (a = 0) by lia. subst a.
    destruct (interpolate_defined 0 T d 0 0) as [v Hv]; [unfold wf_step; simpl; lia..|lia|lia|lia|].
    rewrite Hv. apply interpolate_ok in Hv; [|unfold wf_step; simpl; lia..|lia|lia]. unfold rounded in Hv.
    f_equal. nia.
  - simpl in V. destruct (pl_validate l) eqn:PV; [discriminate|]. apply pl_validate_none in PV as [g [rest [-> [G _]]]].
    simpl in H. destruct (snd (last rest g) =? 0); destruct rest; try (inversion H; subst; simpl; destruct (Z.leb_spec 0 (fst g)); [reflexivity|lia]);
    simpl in *; try discriminate; match type of H with (if ?b then _ else _) = _ => destruct b; [|discriminate] end; inversion H; subst;
    unfold pl_value; destruct (Z.leb_spec 0 (fst g)); try reflexivity; lia.
Qed.

Lemma last_cons {A} (x : A) m : forall d, last (x :: m) d = last m x.
Proof.
  revert x. induction m as [|q l IH]; intros x d; [reflexivity|].
  change (last (x :: q :: l) d) with (last (q :: l) d). rewrite !IH. reflexivity.
Qed.
Lemma last_later l : forall p, times_from (fst p) l -> fst p <= fst (last l p).
Proof.
  induction l as [|q l IH]; intros p Ht; [simpl; lia|]. destruct Ht as [H1 H2]. rewrite last_cons.
  specialize (IH q H2). lia.
Qed.

(** the schedule has run out *)
Definition ended (c : curve) (t : Z) : Prop :=
  match c with
  | Constant _ => False
  | SatLin _ _ d _ => d < t
  | PieceLin l => match l with [] => False | f :: _ => fst (last l f) <= t end
  end.
Lemma schedule_end c T t : typed_curve c = true -> validate_schedule c = Ok T -> ended c t -> cvalue c t = Ok 0.
Proof.
  intros Ty H En. apply typed_wf in Ty. unfold validate_schedule in H. destruct (validate_dec c) eqn:V; [discriminate|].
  destruct c as [y|a b d f|l]; [discriminate| |].
  - destruct (f =? 0) eqn:F; [|discriminate]. apply Z.eqb_eq in F. subst f.
    simpl in *. unfold sl_validate in V. destruct (Z.leb_spec d a); [discriminate|].
    unfold sl_value. destruct (Z.ltb_spec t a); [lia|]. destruct (Z.ltb_spec d t); [reflexivity|lia].
  - destruct l as [|g rest]; [discriminate|]. unfold pl_end_value, pl_first_value in H. cbv iota beta in H.
    destruct (snd (last (g :: rest) g) =? 0) eqn:F; [|discriminate]. apply Z.eqb_eq in F.
    unfold cvalue, pl_value, ended in *. 
    destruct (Z.leb_spec t (fst g)) as [L|L].
    + (* only when there is a single step *)
      unfold validate_dec in V. destruct (pl_validate (g :: rest)) eqn:PV; [discriminate|].
      apply pl_validate_none in PV as [g' [rest' [E [G Tm]]]]. inversion E; subst g' rest'.
      destruct rest as [|h rest]; [simpl in F; congruence|]. exfalso.
      destruct Tm as [T1 T2]. pose proof (last_later rest h T2). rewrite !last_cons in En. lia.
    + destruct (Z.leb_spec (fst (last (g :: rest) g)) t); [congruence|lia].
Qed.

Record VEntry (now : Z) (u : Addr) (x : VInfo) : Prop := {
  ve_rcpt : vi_rcpt x = u;
  ve_typed : typed_curve (vi_sched x) = true;
  ve_sched : exists T, validate_schedule (vi_sched x) = Ok T;
  (* the balance is the amount locked at the time of the last claim (0 before the first) *)
  ve_bal : exists t, 0 <= t <= now /\ cvalue (vi_sched x) t = Ok (vi_bal x) }.

Record VestInv (w : World) (c : Addr) (v : Vest) : Prop := {
  vv_owed : owed v <= bal w (v_token v) c;
  vv_nonneg : nonneg_ents v;
  vv_dense : forall u, dense (v_entries v u);
  vv_ent : forall u i x, fget i (v_entries v u) = Some x -> VEntry (w_now w) u x }.

Lemma VEntry_le n n' u x : n <= n' -> VEntry n u x -> VEntry n' u x.
Proof. intros L [A B C [t [D E]]]. constructor; auto. exists t. split; auto. lia. Qed.

(** ** The calls *)
Definition SameConfV (v v' : Vest) : Prop :=
  v_admin v' = v_admin v /\ v_token v' = v_token v /\ v_maxc v' = v_maxc v.

Lemma create_all_ok l : forall v tot v' tot', create_all v l tot = Ok (v', tot') ->
  (forall u, dense (v_entries v u)) -> nonneg_ents v -> forallb (fun x => typed_curve (snd x)) l = true ->
  v' = set_v_ent v (v_ent v') /\ nonneg_ents v' /\ (forall u, dense (v_entries v' u)) /\
  owed v' = owed v + (tot' - tot) /\
  (forall u i x, fget i (v_entries v u) = Some x -> fget i (v_entries v' u) = Some x) /\
  (forall u i x, fget i (v_entries v' u) = Some x -> fget i (v_entries v u) = Some x \/
     exists c T, In (u, c) l /\ validate_schedule c = Ok T /\ csize c < v_maxc v /\ x = mkVInfo T u c) /\
  (no_dup (map fst l) = true -> forall u c, In (u, c) l -> exists T, validate_schedule c = Ok T /\
     fget (Z.of_nat (length (v_entries v u))) (v_entries v' u) = Some (mkVInfo T u c)).
Proof.
  induction l as [|[u c] l IH]; intros v tot v' tot' H D N Ty; unfold create_all in H; fold create_all in H.
  - inversion H; subst. split; [destruct v'; reflexivity|]. split; [auto|]. split; [auto|]. split; [lia|]. split; [auto|]. split; [auto|].
    intros _ u c I. destruct I.
  - simpl in Ty. apply andb_true_iff in Ty. destruct Ty as [Ty1 Ty2].
    rstep H.
    match goal with K : validate_schedule c = Ok ?z |- _ => rename K into Hv; rename z into T end.
    match goal with K : create_all _ l _ = _ |- _ => rename K into H end.
    assert (TP : 0 <= T).
    { destruct (schedule_start _ _ Ty1 Hv) as [S0 Vd].
      apply value_wf in S0; [lia|apply typed_wf; auto| |lia].
      unfold validate_schedule in Hv. rewrite Vd in Hv. destruct c; simpl in *; [reflexivity| |];
        destruct (sl_validate _ _) || destruct (pl_validate _); auto; discriminate. }
    assert (Es : save_vesting u (mkVInfo T u c) v = with_ent v u (Z.of_nat (length (v_entries v u))) (mkVInfo T u c)).
    { unfold save_vesting, with_ent. rewrite first_free_dense by apply D. reflexivity. }
    rewrite Es in H. set (n := Z.of_nat (length (v_entries v u))) in *. set (xn := mkVInfo T u c) in *.
    assert (Nn : fget n (v_entries v u) = None).
    { destruct (fget n (v_entries v u)) eqn:E; auto. exfalso.
      assert (F : fmem n (v_entries v u) = true) by (unfold fmem; rewrite E; auto). apply D in F. unfold n in F. lia. }
    apply IH in H; auto.
    + destruct H as [H1 [H2 [H3 [H4 [H5 [H6 H7]]]]]].
      split; [rewrite H1; unfold with_ent; reflexivity|]. split; [auto|]. split; [auto|].
      split. { rewrite H4, owed_with, Nn. simpl. lia. }
      split. { intros u' i x E. apply H5. rewrite entries_with. destruct (Z.eqb_spec u' u); auto. subst u'.
        rewrite fget_set_other; auto. intros ->. congruence. }
      split. { intros u' i x E. apply H6 in E. destruct E as [E|[c' [T' [I1 [I2 [I3 I4]]]]]].
        - rewrite entries_with in E. destruct (Z.eqb_spec u' u); auto. subst u'. rewrite fget_set in E.
          destruct (Z.eqb_spec i n); auto. inversion E; subst x. right. exists c, T. split; [left; auto|]. split; auto. split; [lia|reflexivity].
        - right. exists c', T'. split; [right; auto|]. auto. }
      intros ND u' c' I. simpl in ND. apply andb_true_iff in ND. destruct ND as [ND1 ND2]. specialize (H7 ND2).
      destruct I as [I|I].
      * inversion I; subst u' c'. exists T. split; auto. apply H5. rewrite entries_with, Z.eqb_refl, fget_set_same. reflexivity.
      * destruct (H7 _ _ I) as [T' [E1 E2]]. exists T'. split; auto. rewrite entries_with in E2.
        destruct (Z.eqb_spec u' u); auto. subst u'. exfalso. rewrite negb_true_iff in ND1.
        assert (zmem u (map fst l) = true); [|congruence].
        unfold zmem. apply existsb_exists. exists u. split; [|apply Z.eqb_refl]. apply in_map_iff. exists (u, c'). auto.
    + intros u'. rewrite entries_with. destruct (u' =? u); auto. apply dense_add, D.
    + apply nonneg_with; auto.
Qed.

Record VCreate (e : Env) (c : option Addr) (self : Addr) (l : list (Addr * curve)) (w w' : World) (v v' : Vest) (tot : Z) : Prop := {
  vc_code : fget self (w_code w) = Some KVest;
  vc_before : fget self (w_vest w) = Some v;
  vc_typed : forallb (fun x => typed_curve (snd x)) l = true;
  vc_auth : authed e c (v_admin v) = true;
  vc_some : l <> [];
  vc_dup : no_dup (map fst l) = true;
  vc_all : create_all v l 0 = Ok (v', tot);
  vc_paid : Moved (v_token v) (v_admin v) self tot (set_vest w (fset self v' (w_vest w))) w';
  vc_after : fget self (w_vest w') = Some v' }.
Lemma vest_create_ok e c self l w u w' : vest_create e c self l w = Ok (u, w') ->
  exists v v' tot, VCreate e c self l w w' v v' tot.
Proof.
  unfold vest_create. intros H. rstep H. winv.
  match goal with x : (Vest * Z)%type |- _ => destruct x as [v' tot] end.
  match goal with K : _ = Ok (u, w') |- _ => rename K into H end.
  cbv beta iota in H. rstep H. winv. tinv.
  match goal with K : fget self (w_vest w) = Some ?q |- _ => exists q, v', tot end.
  constructor; auto.
  - intros ->. discriminate.
  - match goal with K : Moved _ _ _ _ _ w' |- _ => rewrite (mv_rest _ _ _ _ _ _ K) end. simpl. apply fget_set_same.
Qed.

Record VClaim (e : Env) (c : option Addr) (self u i : Addr) (w w' : World) (v : Vest) (x : VInfo) (locked : Z) : Prop := {
  vk_code : fget self (w_code w) = Some KVest;
  vk_before : fget self (w_vest w) = Some v;
  vk_auth : authed e c u = true;
  vk_entry : fget i (v_entries v u) = Some x;
  vk_locked : cvalue (vi_sched x) (w_now w) = Ok locked;
  vk_pos : locked < vi_bal x;
  vk_paid : Moved (v_token v) self u (vi_bal x - locked)
     (set_vest w (fset self (with_ent v u i (mkVInfo locked (vi_rcpt x) (vi_sched x))) (w_vest w))) w';
  vk_after : fget self (w_vest w') = Some (with_ent v u i (mkVInfo locked (vi_rcpt x) (vi_sched x))) }.
Lemma vest_claim_ok e c self u i w r w' : vest_claim e c self u i w = Ok (r, w') ->
  exists v x locked, VClaim e c self u i w w' v x locked.
Proof.
  unfold vest_claim. intros H. rstep H. winv. tinv.
  match goal with K : fget self (w_vest w) = Some ?q |- _ => rename q into v; rename K into Hv end.
  match goal with K : available v (w_now w) u i = Ok _ |- _ => unfold available in K; rstep K end.
  match goal with K : v_get v u i = Ok ?y, K2 : v_get v u i = Ok ?x |- _ => rewrite K in K2; inversion K2; subst; rename K into Hx end.
  match goal with K : cvalue _ _ = Ok ?y, K2 : cvalue _ _ = Ok ?x |- _ => rewrite K in K2; inversion K2; subst; rename K into Hl end.
  unfold v_get in Hx. rstep Hx.
  match goal with K : fget i (v_entries v u) = Some ?q |- _ => exists v, q end. eexists.
  match goal with K : Moved _ _ _ ?am _ _ |- _ => rename K into M end.
  match type of M with context [vi_bal ?y - (vi_bal ?y - ?z)] => replace (vi_bal y - (vi_bal y - z)) with z in M by lia end.
  constructor; eauto; [lia|]. rewrite (mv_rest _ _ _ _ _ _ M). simpl. apply fget_set_same.
Qed.

(** the minter functions *)
Lemma vest_mint_ok e c self u amt w r w' : vest_mint e c self u amt w = Ok (r, w') ->
  exists v m, fget self (w_vest w) = Some v /\ authed e c u = true /\ v_minter v = Some m /\ u = fst m /\
    0 < amt <= snd m /\ fget self (w_vest w') = Some (set_v_minter v (Some (fst m, snd m - amt))) /\
    exists w1, Minted (v_token v) self amt w w1 /\ w_tok w' = w_tok w1 /\ w_now w' = w_now w.
Proof.
  unfold vest_mint. intros H. rstep H. winv. tinv.
  match goal with K : fget self (w_vest w) = Some ?q |- _ => exists q end.
  match goal with K : v_minter _ = Some ?q |- _ => exists q end.
  match goal with K : Minted _ _ _ _ ?q |- _ => rename K into M; pose proof (mt_rest _ _ _ _ _ M) as E end.
  split; [auto|]. split; [auto|]. split; [auto|]. split; [lia|]. split; [lia|].
  split; [simpl; apply fget_set_same|]. eexists. split; [exact M|]. split; [reflexivity|]. rewrite E. reflexivity.
Qed.
Lemma vest_update_minter_ok e c self u n w r w' : vest_update_minter e c self u n w = Ok (r, w') ->
  exists v, fget self (w_vest w) = Some v /\ authed e c u = true /\
    u = match v_minter v with Some m => fst m | None => v_admin v end /\
    w' = set_vest w (fset self (set_v_minter v (Some (n, match v_minter v with Some m => snd m | None => 0 end))) (w_vest w)).
Proof.
  unfold vest_update_minter. intros H. rstep H. winv.
  match goal with K : fget self (w_vest w) = Some ?q |- _ => exists q end.
  split; [auto|]. split; [auto|]. split; [|reflexivity].
  match goal with K : (match v_minter ?q with _ => _ end) = true |- _ => destruct (v_minter q); lia end.
Qed.
Lemma vest_update_capacity_ok e c self u n w r w' : vest_update_capacity e c self u n w = Ok (r, w') ->
  exists v m, fget self (w_vest w) = Some v /\ authed e c u = true /\ u = v_admin v /\ v_minter v = Some m /\
    w' = set_vest w (fset self (set_v_minter v (Some (fst m, n))) (w_vest w)).
Proof.
  unfold vest_update_capacity. intros H. rstep H. winv.
  match goal with K : fget self (w_vest w) = Some ?q |- _ => exists q end.
  match goal with K : v_minter _ = Some ?q |- _ => exists q end.
  split; [auto|]. split; [auto|]. split; [lia|]. split; [auto|reflexivity].
Qed.
Lemma vest_burn_ok e c self u amt w r w' : vest_burn e c self u amt w = Ok (r, w') ->
  exists v, fget self (w_vest w) = Some v /\ authed e c u = true /\ Burned (v_token v) u (wrap_i128 amt) w w'.
Proof.
  unfold vest_burn. intros H. rstep H. winv. tinv.
  match goal with K : fget self (w_vest w) = Some ?q |- _ => exists q end. auto.
Qed.

(** ** The invariant *)
Lemma VestInv_UT w w' c v : UT c w w' -> Ext w w' -> fget c (w_code w) = Some KVest -> VestInv w c v -> VestInv w' c v.
Proof.
  intros U X _ [A B C D]. constructor; auto.
  - pose proof (ut_bal _ _ _ U (v_token v)). lia.
  - intros u i x E. eapply VEntry_le; [apply X|eauto].
Qed.
(** same entries, and the contract lost none of its token *)
Lemma VestInv_same w w' c v v' : VestInv w c v -> v_ent v' = v_ent v -> v_token v' = v_token v ->
  bal w (v_token v) c <= bal w' (v_token v) c -> w_now w <= w_now w' -> VestInv w' c v'.
Proof.
  intros [A B C D] E1 E2 L N.
  assert (Ee : forall u, v_entries v' u = v_entries v u) by (intros; unfold v_entries; rewrite E1; auto).
  constructor.
  - unfold owed in *. rewrite E1, E2. lia.
  - unfold nonneg_ents. rewrite E1. apply B.
  - intros u. rewrite Ee. apply C.
  - intros u i x E. rewrite Ee in E. eapply VEntry_le; eauto.
Qed.

Lemma vest_create_inv e c self l w u w' v : vest_create e c self l w = Ok (u, w') -> Good w -> 0 <= w_now w -> c <> Some self ->
  fget self (w_vest w) = Some v -> VestInv w self v ->
  exists v', fget self (w_vest w') = Some v' /\ VestInv w' self v'.
Proof.
  intros H G Nw N Ev [A B C D]. apply vest_create_ok in H. destruct H as [v0 [v' [tot V]]].
  destruct V as [V1 V2 V3 V4 V5 V6 V7 V8 V9]. rewrite Ev in V2. inversion V2; subst v0.
  pose proof (authed_ne _ _ _ _ _ _ G V1 N V4) as Ns.
  pose proof (create_all_ok _ _ _ _ _ V7 C B V3) as [H1 [H2 [H3 [H4 [H5 [H6 _]]]]]].
  exists v'. split; auto. constructor; auto.
  - rewrite H1 at 2. simpl. rewrite (mv_bal _ _ _ _ _ _ V8). change (bal (set_vest w (fset self v' (w_vest w))) (v_token v) self) with (bal w (v_token v) self).
    rewrite !Z.eqb_refl. destruct (Z.eqb_spec self (v_admin v)); [congruence|]. simpl. lia.
  - assert (En : w_now w' = w_now w) by (rewrite (mv_rest _ _ _ _ _ _ V8); reflexivity). rewrite En.
    intros u' i x E. apply H6 in E. destruct E as [E|[cc [T [I1 [I2 [I3 ->]]]]]]; [eauto|].
    assert (Ty : typed_curve cc = true) by (rewrite forallb_forall in V3; apply (V3 (u', cc)); auto).
    constructor; simpl; auto; [eauto|]. exists 0. split; [lia|]. apply (schedule_start _ _ Ty I2).
Qed.

Lemma vest_claim_inv e c self u i w r w' v : vest_claim e c self u i w = Ok (r, w') -> Good w -> 0 <= w_now w -> c <> Some self ->
  fget self (w_vest w) = Some v -> VestInv w self v ->
  exists v', fget self (w_vest w') = Some v' /\ VestInv w' self v'.
Proof.
  intros H G Nw N Ev [A B C D]. apply vest_claim_ok in H. destruct H as [v0 [x [lk V]]].
  destruct V as [V1 V2 V3 V4 V5 V6 V7 V8]. rewrite Ev in V2. inversion V2; subst v0.
  pose proof (authed_ne _ _ _ _ _ _ G V1 N V3) as Ns.
  destruct (D _ _ _ V4) as [D1 D2 [T D3] D4].
  destruct (schedule_start _ _ D2 D3) as [S0 Vd].
  assert (L0 : 0 <= lk).
  { apply value_wf in V5; [lia|apply typed_wf; auto| |auto]. destruct (vi_sched x); simpl in *; [reflexivity| |];
        destruct (sl_validate _ _) || destruct (pl_validate _); auto; discriminate. }
  eexists. split; [exact V8|]. constructor.
  - rewrite owed_with, V4. simpl. rewrite (mv_bal _ _ _ _ _ _ V7).
    change (bal (set_vest w _) (v_token v) self) with (bal w (v_token v) self).
    rewrite !Z.eqb_refl. destruct (Z.eqb_spec self u); [congruence|]. simpl. lia.
  - apply nonneg_with; auto.
  - intros u'. rewrite entries_with. destruct (u' =? u); auto. eapply dense_put; eauto.
  - assert (En : w_now w' = w_now w) by (rewrite (mv_rest _ _ _ _ _ _ V7); reflexivity). rewrite En.
    intros u' i' x' E. rewrite entries_with in E. destruct (Z.eqb_spec u' u); [subst u'|eauto].
    rewrite fget_set in E. destruct (Z.eqb_spec i' i); [|eauto]. inversion E; subst x' i'.
    constructor; simpl; auto; [eauto|]. exists (w_now w). split; [lia|auto].
Qed.

Lemma vest_mint_inv e c self u amt w r w' v : vest_mint e c self u amt w = Ok (r, w') ->
  fget self (w_vest w) = Some v -> VestInv w self v ->
  exists v', fget self (w_vest w') = Some v' /\ VestInv w' self v'.
Proof.
  intros H Ev I. apply vest_mint_ok in H. destruct H as [v0 [m [V1 [V2 [V3 [V4 [V5 [V6 [w1 [M [Et En]]]]]]]]]]].
  rewrite Ev in V1. inversion V1; subst v0. eexists. split; [exact V6|].
  eapply VestInv_same; [exact I|reflexivity|reflexivity| |lia].
  rewrite (bal_wtok w1 w') by auto. rewrite (mt_bal _ _ _ _ _ M). pose proof (mt_pos _ _ _ _ _ M).
  unfold ind. destruct (_ && _); lia.
Qed.

Lemma vest_initialize_inv self a t mc m w u w' : vest_initialize self a t mc m w = Ok (u, w') -> Good w ->
  exists v, fget self (w_vest w') = Some v /\ VestInv w' self v.
Proof.
  unfold vest_initialize. intros H G. rstep H. winv. simpl. rewrite fget_set_same. eexists. split; [reflexivity|].
  constructor.
  - change (bal (set_vest w _) t self) with (bal w t self). unfold owed; simpl. apply (good_bal w t self G).
  - intros u0 m0 i0 y0 [].
  - intros u0. apply dense_empty.
  - intros u0 i0 y0 E. unfold v_entries in E. simpl in E. discriminate.
Qed.

Definition AllVest : World -> Prop := AllI w_vest VestInv.

Lemma vest_all_step e k w w' : exec e k w = Ok (tt, w') -> Good w -> 0 <= w_now w -> AllVest w -> AllVest w'.
Proof.
  intros H G Nw A.
  assert (OWN : forall c, (exists p', fget c (w_vest w') = Some p' /\ VestInv w' c p') ->
    forall x', fget c (w_vest w') = Some x' -> VestInv w' c x').
  { intros c [p' [E1 E2]] x' Hx. rewrite Hx in E1. inversion E1; subst; auto. }
  refine (kind_step w_vest KVest VestInv gd_cvest (fun _ _ _ H => ut_vest _ _ _ H) VestInv_UT e k w w' H G A _ _).
  - intros c [T|[T [E|E]]] C; [|discriminate..]. apply OWN.
    pose proof (exec_tkind _ _ _ _ _ H T) as TK. rewrite C in TK.
    destruct k; simpl in T, TK; inversion T; try discriminate TK; subst; simpl in H.
    all: try (destruct (fget c (w_vest w)) as [v0|] eqn:Ep;
      [|exfalso; match type of H with ?m = _ => unfold vest_create, vest_claim, vest_burn, vest_mint, vest_update_minter, vest_update_capacity, vest_update in H end;
        rstep H; winv; congruence]; pose proof (A _ _ Ep) as I).
    + eapply vest_initialize_inv; eauto.
    + eapply vest_create_inv; eauto; discriminate.
    + eapply vest_claim_inv; eauto; discriminate.
    + apply vest_burn_ok in H. destruct H as [v1 [E1 [E2 Bn]]]. rewrite Ep in E1. inversion E1; subst v1.
      assert (Ns : u <> c) by (eapply authed_ne; eauto; discriminate).
      assert (E3 : fget c (w_vest w') = Some v0) by (rewrite (bn_rest _ _ _ _ _ Bn); simpl; auto).
      exists v0. split; auto. eapply VestInv_same; [exact I|reflexivity|reflexivity| |].
      * rewrite (bn_bal _ _ _ _ _ Bn). destruct (Z.eqb_spec c u); [congruence|]. rewrite andb_false_r. simpl. lia.
      * rewrite (bn_rest _ _ _ _ _ Bn). simpl. lia.
    + eapply vest_mint_inv; eauto.
    + apply vest_update_minter_ok in H. destruct H as [v1 [E1 [_ [_ ->]]]]. rewrite Ep in E1. inversion E1; subst v1.
      simpl. rewrite fget_set_same. eexists. split; [reflexivity|]. eapply VestInv_same; [exact I|..]; try reflexivity; simpl; try lia.
    + apply vest_update_capacity_ok in H. destruct H as [v1 [m [E1 [_ [_ [_ ->]]]]]]. rewrite Ep in E1. inversion E1; subst v1.
      simpl. rewrite fget_set_same. eexists. split; [reflexivity|]. eapply VestInv_same; [exact I|..]; try reflexivity; simpl; try lia.
    + apply vest_update_ok in H. subst w'. exists v0. split; [exact Ep|]. eapply VestInv_same; [exact I|..]; try reflexivity; simpl; try lia; try (unfold bal; simpl; lia).
  - intros c x' D G' C Hx. exfalso.
    assert (NoP : fget c (w_vest w) = None).
    { destruct (fget c (w_vest w)) eqn:E; auto. apply (gd_cvest _ G) in E. congruence. }
    destruct k; try discriminate D; deploy_cases H.
    all: try (subst w'; simpl in Hx; rewrite ?fget_set in Hx; congruence).
    match goal with Q : match ty with Xyk => _ | StableT => _ end |- _ => rename Q into Hm end.
    subst. rename Hm into H. simpl in Hx.
    destruct ty; simpl in H.
    + apply pool_initialize_ok in H. destruct H as [_ [_ [_ [_ [_ H]]]]]. cbv zeta in H. subst. simpl in Hx. congruence.
    + destruct H as [a [_ H]]. apply stable_initialize_ok in H.
      destruct H as [? [? [? [? [? [? [? [? [? [? [? [? H]]]]]]]]]]]]. cbv zeta in H. subst. simpl in Hx. congruence.
Qed.

Lemma vest_time w n s : w_now w <= n -> AllVest w -> AllVest (set_time w n s).
Proof. intros L A c x Hx. apply A in Hx. eapply VestInv_same; [exact Hx|reflexivity|reflexivity|apply Z.le_refl|exact L]. Qed.

Theorem reach_vest H w : reachable H w -> AllVest w.
Proof.
  apply reach_inv.
  - intros c x Hx. discriminate.
  - intros e k w1 w2 _ [G N _] X. eapply vest_all_step; eauto. lia.
  - intros; apply vest_time; [lia|auto].
Qed.

(** ** What one transaction does to the record of one vesting contract *)
Inductive VStep (e : Env) (k : Call) (w w' : World) (c : Addr) (v : Vest) : Vest -> Prop :=
| vs_create l tot v' : k = CVestCreate c l -> VCreate e None c l w w' v v' tot -> VStep e k w w' c v v'
| vs_claim u i x lk : k = CVestClaim c u i -> VClaim e None c u i w w' v x lk ->
    VStep e k w w' c v (with_ent v u i (mkVInfo lk (vi_rcpt x) (vi_sched x)))
| vs_mint u amt m w1 : k = CVestMint c u amt -> signs e u = true -> v_minter v = Some m -> u = fst m -> 0 < amt <= snd m ->
    Minted (v_token v) c amt w w1 -> w_tok w' = w_tok w1 ->
    VStep e k w w' c v (set_v_minter v (Some (fst m, snd m - amt)))
| vs_minter u n : k = CVestMinter c u n -> signs e u = true ->
    u = match v_minter v with Some m => fst m | None => v_admin v end -> w_tok w' = w_tok w ->
    VStep e k w w' c v (set_v_minter v (Some (n, match v_minter v with Some m => snd m | None => 0 end)))
| vs_capacity u n m : k = CVestCapacity c u n -> signs e u = true -> u = v_admin v -> v_minter v = Some m -> w_tok w' = w_tok w ->
    VStep e k w w' c v (set_v_minter v (Some (fst m, n)))
| vs_same : (match k with
      | CVestCreate c' _ | CVestClaim c' _ _ | CVestMint c' _ _ | CVestMinter c' _ _ | CVestCapacity c' _ _ => c' <> c
      | _ => True end) ->
    bal w (v_token v) c <= bal w' (v_token v) c -> VStep e k w w' c v v.

Lemma authed_root e a : authed e None a = signs e a.
Proof. unfold authed. apply orb_false_r. Qed.

Theorem vest_step e k w w' c v : exec e k w = Ok (tt, w') -> Good w -> fget c (w_vest w) = Some v ->
  exists v', fget c (w_vest w') = Some v' /\ VStep e k w w' c v v'.
Proof.
  intros H G Ev.
  destruct (exec_framec _ _ _ _ H G) as [G' [X' [_ [_ U]]]].
  pose proof (gd_cvest _ G _ _ Ev) as Hc.
  destruct (exists_dec_acts k c KVest) as [[T|[T [E|E]]]|N]; [|discriminate..|].
  - pose proof (exec_tkind _ _ _ _ _ H T) as TK. rewrite Hc in TK.
    destruct k; simpl in T, TK; inversion T; try discriminate TK; subst; simpl in H.
    + unfold vest_initialize in H. rstep H. winv. exfalso.
      match goal with K : context [fmem c (w_vest _)] |- _ => unfold fmem in K; rewrite Ev in K; discriminate K end.
    + apply vest_create_ok in H. destruct H as [v0 [v' [tot V]]].
      pose proof (vc_before _ _ _ _ _ _ _ _ _ V) as E0. rewrite Ev in E0. inversion E0; subst v0.
      exists v'. split; [apply (vc_after _ _ _ _ _ _ _ _ _ V)|]. eapply vs_create; eauto.
    + apply vest_claim_ok in H. destruct H as [v0 [x [lk V]]].
      pose proof (vk_before _ _ _ _ _ _ _ _ _ _ V) as E0. rewrite Ev in E0. inversion E0; subst v0.
      eexists. split; [apply (vk_after _ _ _ _ _ _ _ _ _ _ V)|]. eapply vs_claim; eauto.
    + apply vest_burn_ok in H. destruct H as [v1 [E1 [E2 Bn]]]. rewrite Ev in E1. inversion E1; subst v1.
      pose proof (authed_ne _ None _ _ _ _ G Hc ltac:(discriminate) E2) as Ns.
      exists v. split; [rewrite (bn_rest _ _ _ _ _ Bn); simpl; auto|]. apply vs_same; [exact I|].
      rewrite (bn_bal _ _ _ _ _ Bn). destruct (Z.eqb_spec c u); [congruence|]. rewrite andb_false_r. simpl. lia.
    + apply vest_mint_ok in H. destruct H as [v0 [m [V1 [V2 [V3 [V4 [V5 [V6 [w1 [M [Et En]]]]]]]]]]].
      rewrite Ev in V1. inversion V1; subst v0. rewrite authed_root in V2. eexists. split; [exact V6|]. eapply vs_mint; eauto.
    + apply vest_update_minter_ok in H. destruct H as [v1 [E1 [E2 [E3 ->]]]]. rewrite Ev in E1. inversion E1; subst v1.
      rewrite authed_root in E2. simpl. rewrite fget_set_same. eexists. split; [reflexivity|]. eapply vs_minter; eauto.
    + apply vest_update_capacity_ok in H. destruct H as [v1 [m [E1 [E2 [E3 [E4 ->]]]]]]. rewrite Ev in E1. inversion E1; subst v1.
      rewrite authed_root in E2. simpl. rewrite fget_set_same. eexists. split; [reflexivity|]. eapply vs_capacity; eauto.
    + apply vest_update_ok in H. subst w'. exists v. split; auto. apply vs_same; [exact I|unfold bal; simpl; lia].
  - specialize (U _ _ Hc N). rewrite (ut_vest _ _ _ U). exists v. split; auto. apply vs_same; [|apply (ut_bal _ _ _ U)].
    destruct k; try exact I; intros Eq; apply N; left; simpl; f_equal; exact Eq.
Qed.

(** totals of a creation *)
Fixpoint sum_start (l : list (Addr * curve)) : Z :=
  match l with
  | [] => 0
  | (_, c) :: tl => match cvalue c 0 with Ok T => T | Err _ => 0 end + sum_start tl
  end.
Lemma create_all_total l : forall v tot v' tot', create_all v l tot = Ok (v', tot') ->
  forallb (fun x => typed_curve (snd x)) l = true -> tot' = tot + sum_start l.
Proof.
  induction l as [|[u c] l IH]; intros v tot v' tot' H Ty; unfold create_all in H; fold create_all in H.
  - inversion H; subst. simpl. lia.
  - simpl in Ty. apply andb_true_iff in Ty. destruct Ty as [Ty1 Ty2].
    destruct (validate_schedule c) as [T|] eqn:Hv; [|discriminate]. destruct (schedule_start _ _ Ty1 Hv) as [S0 _].
    rstep H. match goal with K : create_all _ l _ = _ |- _ => apply IH in K; auto end. simpl. rewrite S0. lia.
Qed.
Lemma create_all_size l : forall v tot v' tot' , create_all v l tot = Ok (v', tot') ->
  forall u c, In (u, c) l -> csize c < v_maxc v.
Proof.
  induction l as [|[u c] l IH]; intros v tot v' tot' H u' c' I; [destruct I|].
  unfold create_all in H; fold create_all in H. rstep H. destruct I as [E|E].
  - inversion E; subst. lia.
  - match goal with K : create_all _ l _ = _ |- _ => eapply IH in K; eauto end.
Qed.
