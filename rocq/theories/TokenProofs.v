(** Effects of the token entry points on the ledger. *)
From Coq Require Import ZArith List Bool Lia.
From Coq Require Import ZifyBool.
From Verif Require Import Base FMap World Token.
Import ListNotations.
Open Scope Z_scope.

(** ** Observables *)
Definition bal (w : World) (t a : Addr) : Z :=
  match fget t (w_tok w) with Some k => tk_balance a k | None => 0 end.
Definition tk_supply (k : Token) : Z := fsum (fun x => x) (t_bal k).
Definition supply (w : World) (t : Addr) : Z :=
  match fget t (w_tok w) with Some k => tk_supply k | None => 0 end.
Definition tadmin (w : World) (t : Addr) : option Addr :=
  match fget t (w_tok w) with Some k => Some (t_admin k) | None => None end.
Definition tdec (w : World) (t : Addr) : option Z :=
  match fget t (w_tok w) with Some k => Some (t_dec k) | None => None end.
Definition is_tok (w : World) (t : Addr) : Prop := exists k, fget t (w_tok w) = Some k.

Definition ind (b : bool) (x : Z) : Z := if b then x else 0.

Lemma ind_t x : ind true x = x. Proof. reflexivity. Qed.
Lemma ind_f x : ind false x = 0. Proof. reflexivity. Qed.

(** ** Invariant of one token *)
Record TokGood (k : Token) : Prop := {
  tg_range : forall a, 0 <= tk_balance a k <= I128_MAX;
  tg_ent : forall a b, In (a, b) (t_bal k) -> 0 <= b;
  tg_supply : tk_supply k = t_minted k - t_burned k;
  tg_allow : forall f s a x, tk_allow_entry f s k = Some (a, x) -> f < 0 /\ 0 <= a;
  tg_dec : 0 <= t_dec k <= 18;
  tg_sorted : fsorted (t_bal k) }.

Lemma tk_balance_write a b x k : tk_balance b (tk_write_balance a x k) = if b =? a then x else tk_balance b k.
Proof. unfold tk_balance, tk_write_balance; simpl. apply fgetd_set. Qed.

Lemma tk_supply_write a x k : tk_supply (tk_write_balance a x k) = tk_supply k - tk_balance a k + x.
Proof.
  unfold tk_supply, tk_write_balance, tk_balance; simpl. rewrite fsum_set.
  unfold fgetd. destruct (fget a (t_bal k)); lia.
Qed.

Lemma tk_receive_ok a x k k' : tk_receive a x k = Ok k' ->
  k' = tk_write_balance a (tk_balance a k + x) k /\ tk_balance a k + x <= I128_MAX.
Proof. unfold tk_receive. intros H. rstep H. split; [reflexivity|lia]. Qed.

Lemma tk_spend_ok a x k k' : tk_spend a x k = Ok k' ->
  k' = tk_write_balance a (tk_balance a k - x) k /\ x <= tk_balance a k.
Proof.
  unfold tk_spend. intros H. rstep H. split; [reflexivity|].
  match goal with G : negb _ = true |- _ => rewrite negb_true_iff, Z.ltb_ge in G end. lia.
Qed.

Lemma tk_write_good a x k : TokGood k -> 0 <= x <= I128_MAX ->
  (forall b, 0 <= tk_balance b (tk_write_balance a x k) <= I128_MAX) /\
  (forall b y, In (b, y) (t_bal (tk_write_balance a x k)) -> 0 <= y).
Proof.
  intros G Hx. split.
  - intros b. rewrite tk_balance_write. destruct (b =? a); [lia| apply (tg_range _ G)].
  - intros b y Hin. simpl in Hin. apply fset_in in Hin. destruct Hin as [E|Hin].
    + inversion E; lia.
    + apply (tg_ent _ G _ _ Hin).
Qed.

Lemma supply_ge_bal k a : TokGood k -> tk_balance a k <= tk_supply k.
Proof.
  intros G. unfold tk_balance, fgetd. destruct (fget a (t_bal k)) eqn:E.
  - unfold tk_supply. apply (fsum_ge_get (fun x => x) a z); auto.
    intros b y Hin. exact (tg_ent _ G _ _ Hin).
  - unfold tk_supply. apply fsum_nonneg. intros b y Hin. exact (tg_ent _ G _ _ Hin).
Qed.

(** two different holders together hold at most the supply *)
Lemma supply_ge_two k a b : TokGood k -> a <> b -> tk_balance a k + tk_balance b k <= tk_supply k.
Proof.
  intros G N.
  pose proof (tk_supply_write a 0 k) as E.
  assert (G2 : 0 <= tk_balance b (tk_write_balance a 0 k) <= tk_supply (tk_write_balance a 0 k)).
  { rewrite tk_balance_write. destruct (Z.eqb_spec b a); [congruence|].
    destruct (tk_write_good a 0 k G ltac:(unfold I128_MAX; lia)) as [R1 R2].
    split; [apply (tg_range _ G)|].
    rewrite E.
    unfold tk_balance, fgetd. destruct (fget b (t_bal k)) eqn:Eb.
    - assert (Hs : z <= fsum (fun x => x) (t_bal (tk_write_balance a 0 k))).
      { apply (fsum_ge_get (fun x => x) b z).
        - intros; eauto.
        - unfold tk_write_balance; simpl. rewrite fget_set_other by auto. exact Eb. }
      unfold tk_supply in E. rewrite E in Hs. unfold tk_balance, fgetd in Hs. exact Hs.
    - assert (Hs : 0 <= fsum (fun x => x) (t_bal (tk_write_balance a 0 k))).
      { apply fsum_nonneg. intros; eauto. }
      unfold tk_supply in E. rewrite E in Hs. unfold tk_balance, fgetd in Hs. exact Hs. }
  rewrite tk_balance_write in G2. destruct (Z.eqb_spec b a); [congruence|]. lia.
Qed.

(** ** upd_tok *)
Lemma get_tok_ok t w k w' : get_tok t w = Ok (k, w') -> fget t (w_tok w) = Some k /\ w' = w.
Proof. unfold get_tok. destruct (fget t (w_tok w)); intros H; inversion H; auto. Qed.

Lemma upd_tok_ok t f w u w' : upd_tok t f w = Ok (u, w') ->
  exists k k', fget t (w_tok w) = Some k /\ f k = Ok k' /\ w' = set_tok w (fset t k' (w_tok w)).
Proof.
  unfold upd_tok, put_tok. intros H. rstep H.
  match goal with R : get_tok _ _ = Ok _ |- _ => apply get_tok_ok in R; destruct R as [? ->] end.
  destr_pair. eauto 6.
Qed.

Lemma require_auth_ok e c a w u w' : require_auth e c a w = Ok (u, w') -> authed e c a = true /\ w' = w.
Proof. unfold require_auth. intros H. rstep H. auto. Qed.

Lemma nonneg_true x : nonneg x = true -> 0 <= x.
Proof. unfold nonneg. rewrite negb_true_iff, Z.ltb_ge. auto. Qed.

(** A token-only change of the ledger at token [t]. *)
Definition TokUpd (t : Addr) (k k' : Token) (w w' : World) : Prop :=
  fget t (w_tok w) = Some k /\ w' = set_tok w (fset t k' (w_tok w)).

Lemma bal_upd t k k' w w' x a : TokUpd t k k' w w' ->
  bal w' x a = if x =? t then tk_balance a k' else bal w x a.
Proof.
  intros [E ->]. unfold bal; simpl. rewrite fget_set. destruct (x =? t); reflexivity.
Qed.
Lemma bal_get t k w a : fget t (w_tok w) = Some k -> bal w t a = tk_balance a k.
Proof. unfold bal. intros ->. reflexivity. Qed.
Lemma supply_upd t k k' w w' x : TokUpd t k k' w w' ->
  supply w' x = if x =? t then tk_supply k' else supply w x.
Proof.
  intros [E ->]. unfold supply; simpl. rewrite fget_set. destruct (x =? t); reflexivity.
Qed.
Lemma tadmin_upd t k k' w w' x : TokUpd t k k' w w' -> t_admin k' = t_admin k ->
  tadmin w' x = tadmin w x.
Proof.
  intros [E ->] A. unfold tadmin; simpl. rewrite fget_set. destruct (Z.eqb_spec x t); [|reflexivity].
  subst. rewrite E. congruence.
Qed.
Lemma tdec_upd t k k' w w' x : TokUpd t k k' w w' -> t_dec k' = t_dec k ->
  tdec w' x = tdec w x.
Proof.
  intros [E ->] A. unfold tdec; simpl. rewrite fget_set. destruct (Z.eqb_spec x t); [|reflexivity].
  subst. rewrite E. congruence.
Qed.

(** ** Effects of the entry points *)
Record TrEff (k k' : Token) (from to amt : Z) : Prop := {
  te_pos : 0 <= amt;
  te_le : amt <= tk_balance from k;
  te_bal : forall a, tk_balance a k' = tk_balance a k - ind (a =? from) amt + ind (a =? to) amt;
  te_fit : tk_balance to k' <= I128_MAX;
  te_sup : tk_supply k' = tk_supply k;
  te_adm : t_admin k' = t_admin k;
  te_dec : t_dec k' = t_dec k;
  te_mint : t_minted k' = t_minted k;
  te_burn : t_burned k' = t_burned k;
  te_ent : (forall a b, In (a, b) (t_bal k) -> 0 <= b) ->
           (forall a, 0 <= tk_balance a k) -> forall a b, In (a, b) (t_bal k') -> 0 <= b;
  te_sorted : fsorted (t_bal k) -> fsorted (t_bal k') }.

Lemma spend_receive_eff from to amt k0 k1 k2 : 0 <= amt ->
  tk_spend from amt k0 = Ok k1 -> tk_receive to amt k1 = Ok k2 ->
  TrEff k0 k2 from to amt /\ t_allow k2 = t_allow k0.
Proof.
  intros P H1 H2. apply tk_spend_ok in H1. destruct H1 as [-> L].
  apply tk_receive_ok in H2. destruct H2 as [-> F].
  split; [|reflexivity].
  constructor; try reflexivity; auto.
  - intros a. rewrite !tk_balance_write.
    destruct (Z.eqb_spec a to); destruct (Z.eqb_spec to from); destruct (Z.eqb_spec a from);
      unfold ind; subst; try congruence; try lia.
  - rewrite !tk_balance_write. rewrite Z.eqb_refl. rewrite tk_balance_write in F. exact F.
  - rewrite !tk_supply_write. lia.
  - intros Hin Hnn a b. simpl. intros Hx. apply fset_in in Hx. destruct Hx as [E|Hx].
    + inversion E; subst. rewrite tk_balance_write. destruct (to =? from); pose proof (Hnn to); lia.
    + apply fset_in in Hx. destruct Hx as [E|Hx]; [inversion E; subst; lia|eauto].
  - intros So. apply fsorted_set, fsorted_set, So.
Qed.

Lemma tok_transfer_ok e c t from to amt w u w' :
  tok_transfer e c t from to amt w = Ok (u, w') ->
  authed e c from = true /\ exists k k', TokUpd t k k' w w' /\ TrEff k k' from to amt /\
    t_allow k' = t_allow k.
Proof.
  unfold tok_transfer. intros H. rstep H.
  repeat match goal with R : require_auth _ _ _ _ = Ok _ |- _ => apply require_auth_ok in R; destruct R as [? ->] end.
  match goal with R : upd_tok _ _ _ = Ok _ |- _ => apply upd_tok_ok in R; destruct R as [k [k' [E [F ->]]]] end.
  rstep F. split; auto. exists k, k'.
  match goal with A : nonneg _ = true |- _ => apply nonneg_true in A end.
  match goal with A : tk_spend _ _ _ = Ok _, B : tk_receive _ _ _ = Ok _ |- _ =>
    destruct (spend_receive_eff _ _ _ _ _ _ ltac:(eassumption) A B) end.
  split; [split; auto|split; auto].
Qed.

(** Moving tokens: ledger-level statement. *)
Record Moved (t from to amt : Z) (w w' : World) : Prop := {
  mv_rest : w' = set_tok w (w_tok w');
  mv_pos : 0 <= amt;
  mv_le : amt <= bal w t from;
  mv_bal : forall x a, bal w' x a =
    bal w x a - ind ((x =? t) && (a =? from)) amt + ind ((x =? t) && (a =? to)) amt;
  mv_fit : bal w' t to <= I128_MAX;
  mv_sup : forall x, supply w' x = supply w x;
  mv_adm : forall x, tadmin w' x = tadmin w x;
  mv_dec : forall x, tdec w' x = tdec w x }.

Lemma tok_transfer_moved e c t from to amt w u w' :
  tok_transfer e c t from to amt w = Ok (u, w') ->
  authed e c from = true /\ Moved t from to amt w w'.
Proof.
  intros H. apply tok_transfer_ok in H. destruct H as [A [k [k' [U [T _]]]]].
  split; auto. pose proof (proj1 U) as E. constructor.
  - destruct U as [_ ->]. reflexivity.
  - apply (te_pos _ _ _ _ _ T).
  - rewrite (bal_get t k) by auto. apply (te_le _ _ _ _ _ T).
  - intros x a. rewrite (bal_upd _ _ _ _ _ x a U). destruct (Z.eqb_spec x t); simpl.
    + subst. rewrite (te_bal _ _ _ _ _ T). rewrite (bal_get t k) by auto. reflexivity.
    + unfold ind. lia.
  - rewrite (bal_upd _ _ _ _ _ t to U), Z.eqb_refl. apply (te_fit _ _ _ _ _ T).
  - intros x. rewrite (supply_upd _ _ _ _ _ x U). destruct (Z.eqb_spec x t); auto.
    subst. rewrite (te_sup _ _ _ _ _ T). unfold supply. rewrite E. reflexivity.
  - intros x. apply (tadmin_upd _ _ _ _ _ x U). apply (te_adm _ _ _ _ _ T).
  - intros x. apply (tdec_upd _ _ _ _ _ x U). apply (te_dec _ _ _ _ _ T).
Qed.

Lemma tok_balance_ok t a w x w' : tok_balance t a w = Ok (x, w') -> w' = w /\ x = bal w t a /\ is_tok w t.
Proof.
  unfold tok_balance. intros H. rstep H.
  match goal with R : get_tok _ _ = Ok _ |- _ => apply get_tok_ok in R; destruct R as [? ->] end.
  destr_pair. unfold bal, is_tok.
  match goal with E : fget _ _ = Some _ |- _ => rewrite E end. eauto.
Qed.

Lemma tok_decimals_ok t w x w' : tok_decimals t w = Ok (x, w') -> w' = w /\ tdec w t = Some x.
Proof.
  unfold tok_decimals. intros H. rstep H.
  match goal with R : get_tok _ _ = Ok _ |- _ => apply get_tok_ok in R; destruct R as [? ->] end.
  destr_pair. unfold tdec. match goal with E : fget _ _ = Some _ |- _ => rewrite E end. auto.
Qed.

(** Minting and burning. *)
Record Minted (t to amt : Z) (w w' : World) : Prop := {
  mt_rest : w' = set_tok w (w_tok w');
  mt_pos : 0 <= amt;
  mt_bal : forall x a, bal w' x a = bal w x a + ind ((x =? t) && (a =? to)) amt;
  mt_fit : bal w' t to <= I128_MAX;
  mt_sup : forall x, supply w' x = supply w x + ind (x =? t) amt;
  mt_adm : forall x, tadmin w' x = tadmin w x;
  mt_dec : forall x, tdec w' x = tdec w x }.

Lemma tok_mint_ok e c t to amt w u w' : tok_mint e c t to amt w = Ok (u, w') ->
  exists k, authed e c (t_admin k) = true /\ 0 <= amt /\
    TokUpd t k (tk_log_mint amt (tk_write_balance to (tk_balance to k + amt) k)) w w' /\
    tk_balance to k + amt <= I128_MAX.
Proof.
  unfold tok_mint. intros H. rstep H.
  match goal with R : get_tok _ _ = Ok _ |- _ => apply get_tok_ok in R; destruct R as [Ek ->] end.
  match goal with R : require_auth _ _ _ _ = Ok _ |- _ => apply require_auth_ok in R; destruct R as [? ->] end.
  match goal with R : upd_tok _ _ _ = Ok _ |- _ => apply upd_tok_ok in R; destruct R as [k [k' [E [F ->]]]] end.
  rewrite Ek in E; inversion E; subst k. rstep F.
  match goal with R : tk_receive _ _ _ = Ok _ |- _ => apply tk_receive_ok in R; destruct R as [-> ?] end.
  match goal with A : nonneg _ = true |- _ => apply nonneg_true in A end.
  destr_pair. eexists; repeat split; eauto.
Qed.

Lemma tok_mint_minted e c t to amt w u w' : tok_mint e c t to amt w = Ok (u, w') ->
  (exists a, tadmin w t = Some a /\ authed e c a = true) /\ Minted t to amt w w'.
Proof.
  intros H. apply tok_mint_ok in H. destruct H as [k [A [P [U F]]]].
  pose proof (proj1 U) as E.
  split. { exists (t_admin k). unfold tadmin. rewrite E. auto. }
  constructor.
  - destruct U as [_ ->]. reflexivity.
  - auto.
  - intros x a. rewrite (bal_upd _ _ _ _ _ x a U). destruct (Z.eqb_spec x t); simpl.
    + subst. rewrite (bal_get t k) by auto.
      change (tk_balance a (tk_write_balance to (tk_balance to k + amt) k) =
              tk_balance a k + ind (a =? to) amt).
      rewrite tk_balance_write. destruct (Z.eqb_spec a to); subst; unfold ind; lia.
    + unfold ind. lia.
  - rewrite (bal_upd _ _ _ _ _ t to U), Z.eqb_refl.
    change (tk_balance to (tk_write_balance to (tk_balance to k + amt) k) <= I128_MAX).
    rewrite tk_balance_write, Z.eqb_refl. auto.
  - intros x. rewrite (supply_upd _ _ _ _ _ x U). destruct (Z.eqb_spec x t); unfold ind.
    + subst. unfold supply. rewrite E.
      change (tk_supply (tk_write_balance to (tk_balance to k + amt) k) = tk_supply k + amt).
      rewrite tk_supply_write. lia.
    + lia.
  - intros x. apply (tadmin_upd _ _ _ _ _ x U). reflexivity.
  - intros x. apply (tdec_upd _ _ _ _ _ x U). reflexivity.
Qed.

Record Burned (t from amt : Z) (w w' : World) : Prop := {
  bn_rest : w' = set_tok w (w_tok w');
  bn_pos : 0 <= amt;
  bn_le : amt <= bal w t from;
  bn_bal : forall x a, bal w' x a = bal w x a - ind ((x =? t) && (a =? from)) amt;
  bn_sup : forall x, supply w' x = supply w x - ind (x =? t) amt;
  bn_adm : forall x, tadmin w' x = tadmin w x;
  bn_dec : forall x, tdec w' x = tdec w x }.

Lemma tok_burn_ok e c t from amt w u w' : tok_burn e c t from amt w = Ok (u, w') ->
  authed e c from = true /\ 0 <= amt /\ exists k,
    TokUpd t k (tk_log_burn amt (tk_write_balance from (tk_balance from k - amt) k)) w w' /\
    amt <= tk_balance from k.
Proof.
  unfold tok_burn. intros H. rstep H.
  match goal with R : require_auth _ _ _ _ = Ok _ |- _ => apply require_auth_ok in R; destruct R as [? ->] end.
  match goal with R : upd_tok _ _ _ = Ok _ |- _ => apply upd_tok_ok in R; destruct R as [k [k' [E [F ->]]]] end.
  rstep F.
  match goal with R : tk_spend _ _ _ = Ok _ |- _ => apply tk_spend_ok in R; destruct R as [-> ?] end.
  match goal with A : nonneg _ = true |- _ => apply nonneg_true in A end.
  destr_pair. repeat split; auto. eexists; repeat split; eauto.
Qed.

Lemma tok_burn_burned e c t from amt w u w' : tok_burn e c t from amt w = Ok (u, w') ->
  authed e c from = true /\ Burned t from amt w w'.
Proof.
  intros H. apply tok_burn_ok in H. destruct H as [A [P [k [U F]]]].
  pose proof (proj1 U) as E. split; auto.
  constructor.
  - destruct U as [_ ->]. reflexivity.
  - auto.
  - rewrite (bal_get t k) by auto. auto.
  - intros x a. rewrite (bal_upd _ _ _ _ _ x a U). destruct (Z.eqb_spec x t); simpl.
    + subst. rewrite (bal_get t k) by auto.
      change (tk_balance a (tk_write_balance from (tk_balance from k - amt) k) =
              tk_balance a k - ind (a =? from) amt).
      rewrite tk_balance_write. destruct (Z.eqb_spec a from); subst; unfold ind; lia.
    + unfold ind. lia.
  - intros x. rewrite (supply_upd _ _ _ _ _ x U). destruct (Z.eqb_spec x t); unfold ind.
    + subst. unfold supply. rewrite E.
      change (tk_supply (tk_write_balance from (tk_balance from k - amt) k) = tk_supply k - amt).
      rewrite tk_supply_write. lia.
    + lia.
  - intros x. apply (tadmin_upd _ _ _ _ _ x U). reflexivity.
  - intros x. apply (tdec_upd _ _ _ _ _ x U). reflexivity.
Qed.

(** ** Allowances *)
Lemma tk_write_allowance_ok seq f s amt ex k k' : tk_write_allowance seq f s amt ex k = Ok k' ->
  (0 < amt -> seq <= ex) /\
  t_admin k' = t_admin k /\ t_dec k' = t_dec k /\ t_bal k' = t_bal k /\
  t_minted k' = t_minted k /\ t_burned k' = t_burned k /\
  (forall f' s', tk_allow_entry f' s' k' =
     if (f' =? f) && (s' =? s) then Some (amt, ex) else tk_allow_entry f' s' k).
Proof.
  unfold tk_write_allowance. intros H. rstep H. simpl. repeat split; auto.
  - intros P. match goal with R : negb _ = true |- _ => rename R into B end.
    destruct (Z.ltb_spec 0 amt); [|lia]. simpl in B. lia.
  - intros f' s'. unfold tk_allow_entry; simpl. rewrite fget_set.
    destruct (Z.eqb_spec f' f); simpl; [|reflexivity].
    subst. rewrite fget_set. destruct (Z.eqb_spec s' s); [reflexivity|].
    destruct (fget f (t_allow k)); reflexivity.
Qed.

Lemma tk_spend_allowance_ok seq f s amt k k' : 0 <= amt ->
  tk_spend_allowance seq f s amt k = Ok k' ->
  let a := fst (tk_read_allowance seq f s k) in
  amt <= a /\
  t_admin k' = t_admin k /\ t_dec k' = t_dec k /\ t_bal k' = t_bal k /\
  t_minted k' = t_minted k /\ t_burned k' = t_burned k /\
  (forall f' s', tk_allow_entry f' s' k' =
     if (f' =? f) && (s' =? s) && (0 <? amt) then Some (a - amt, snd (tk_read_allowance seq f s k))
     else tk_allow_entry f' s' k).
Proof.
  intros P. unfold tk_spend_allowance. destruct (tk_read_allowance seq f s k) as [a ex] eqn:E.
  intros H. rstep H. simpl.
  match goal with G : negb _ = true |- _ => rewrite negb_true_iff, Z.ltb_ge in G end.
  destruct (Z.ltb_spec 0 amt).
  - match goal with R : _ = Ok _ |- _ => rstep R end.
    match goal with R : tk_write_allowance _ _ _ _ _ _ = Ok _ |- _ =>
      apply tk_write_allowance_ok in R; destruct R as [? [? [? [? [? [? HH]]]]]] end.
    repeat split; auto. intros f' s'. rewrite HH. rewrite andb_true_r. reflexivity.
  - match goal with R : Ok _ = Ok _ |- _ => inversion R; subst end.
    repeat split; auto. intros. rewrite andb_false_r. reflexivity.
Qed.

(** ** The token invariant is preserved by every entry point *)
Lemma TrEff_good k k' from to amt : TrEff k k' from to amt ->
  (forall f s, tk_allow_entry f s k' = tk_allow_entry f s k \/
               exists a x, tk_allow_entry f s k' = Some (a, x) /\ f < 0 /\ 0 <= a) ->
  TokGood k -> TokGood k'.
Proof.
  intros T A G. constructor.
  - intros a. pose proof (te_bal _ _ _ _ _ T a) as B. pose proof (tg_range _ G a).
    pose proof (te_pos _ _ _ _ _ T). pose proof (te_le _ _ _ _ _ T).
    pose proof (te_fit _ _ _ _ _ T).
    destruct (Z.eqb_spec a from); destruct (Z.eqb_spec a to); unfold ind in B; subst; lia.
  - apply (te_ent _ _ _ _ _ T); [apply (tg_ent _ G)| intros; apply (tg_range _ G)].
  - rewrite (te_sup _ _ _ _ _ T), (te_mint _ _ _ _ _ T), (te_burn _ _ _ _ _ T). apply (tg_supply _ G).
  - intros f s a x Ha. destruct (A f s) as [E|[a' [x' [E ?]]]].
    + rewrite E in Ha. apply (tg_allow _ G f s a x Ha).
    + rewrite E in Ha; inversion Ha; subst; auto.
  - rewrite (te_dec _ _ _ _ _ T). apply (tg_dec _ G).
  - apply (te_sorted _ _ _ _ _ T), (tg_sorted _ G).
Qed.

Lemma mint_good k to amt : 0 <= amt -> tk_balance to k + amt <= I128_MAX -> TokGood k ->
  TokGood (tk_log_mint amt (tk_write_balance to (tk_balance to k + amt) k)).
Proof.
  intros P F G. pose proof (tg_range _ G to).
  destruct (tk_write_good to (tk_balance to k + amt) k G ltac:(lia)) as [A B].
  constructor; simpl; auto.
  - change (tk_supply (tk_write_balance to (tk_balance to k + amt) k) = t_minted k + amt - t_burned k).
    rewrite tk_supply_write. pose proof (tg_supply _ G). lia.
  - apply (tg_allow _ G).
  - apply (tg_dec _ G).
  - apply fsorted_set, (tg_sorted _ G).
Qed.

Lemma burn_good k from amt : 0 <= amt -> amt <= tk_balance from k -> TokGood k ->
  TokGood (tk_log_burn amt (tk_write_balance from (tk_balance from k - amt) k)).
Proof.
  intros P F G. pose proof (tg_range _ G from).
  destruct (tk_write_good from (tk_balance from k - amt) k G ltac:(lia)) as [A B].
  constructor; simpl; auto.
  - change (tk_supply (tk_write_balance from (tk_balance from k - amt) k) = t_minted k - (t_burned k + amt)).
    rewrite tk_supply_write. pose proof (tg_supply _ G). lia.
  - apply (tg_allow _ G).
  - apply (tg_dec _ G).
  - apply fsorted_set, (tg_sorted _ G).
Qed.

Lemma allow_good k k' :
  t_dec k' = t_dec k -> t_bal k' = t_bal k -> t_minted k' = t_minted k -> t_burned k' = t_burned k ->
  (forall f s, tk_allow_entry f s k' = tk_allow_entry f s k \/
               exists a x, tk_allow_entry f s k' = Some (a, x) /\ f < 0 /\ 0 <= a) ->
  TokGood k -> TokGood k'.
Proof.
  intros D B M R A G. constructor.
  - intros a. unfold tk_balance. rewrite B. apply (tg_range _ G).
  - rewrite B. apply (tg_ent _ G).
  - unfold tk_supply. rewrite B, M, R. apply (tg_supply _ G).
  - intros f s a x Ha. destruct (A f s) as [E|[a' [x' [E ?]]]].
    + rewrite E in Ha. apply (tg_allow _ G f s a x Ha).
    + rewrite E in Ha; inversion Ha; subst; auto.
  - rewrite D. apply (tg_dec _ G).
  - rewrite B. apply (tg_sorted _ G).
Qed.

Lemma spend_allowance_good seq f s amt k k' : 0 <= amt ->
  tk_spend_allowance seq f s amt k = Ok k' -> TokGood k -> TokGood k'.
Proof.
  intros P H G. pose proof (tk_spend_allowance_ok _ _ _ _ _ _ P H) as [L [A [D [B [M [R E]]]]]].
  apply (allow_good k); auto.
  intros f' s'. rewrite E.
  destruct (Z.eqb_spec f' f); destruct (Z.eqb_spec s' s); destruct (Z.ltb_spec 0 amt); simpl; auto.
  subst. right. eexists _, _. split; [reflexivity|].
  split; [|lia].
  unfold tk_read_allowance in L. destruct (tk_allow_entry f s k) as [[a x]|] eqn:Ea.
  - apply (tg_allow _ G f s a x Ea).
  - simpl in L. lia.
Qed.

(** shape of transfer_from / burn_from *)
Lemma tok_transfer_from_ok e c t sp from to amt w u w' :
  tok_transfer_from e c t sp from to amt w = Ok (u, w') ->
  authed e c sp = true /\ 0 <= amt /\ exists k k0 k',
    tk_spend_allowance (w_seq w) from sp amt k = Ok k0 /\
    TrEff k0 k' from to amt /\ t_allow k' = t_allow k0 /\ TokUpd t k k' w w'.
Proof.
  unfold tok_transfer_from. intros H. rstep H.
  match goal with R : require_auth _ _ _ _ = Ok _ |- _ => apply require_auth_ok in R; destruct R as [? ->] end.
  match goal with R : upd_tok _ _ _ = Ok _ |- _ => apply upd_tok_ok in R; destruct R as [k [k' [E [F ->]]]] end.
  rstep F.
  match goal with A : nonneg _ = true |- _ => apply nonneg_true in A end.
  match goal with A : tk_spend _ _ _ = Ok _, B : tk_receive _ _ _ = Ok _ |- _ =>
    destruct (spend_receive_eff _ _ _ _ _ _ ltac:(eassumption) A B) end.
  split; [auto|split; [auto|]]. eexists _, _, _.
  split; [eassumption|split; [eassumption|split; [assumption|split; auto]]].
Qed.

Lemma tok_burn_from_ok e c t sp from amt w u w' :
  tok_burn_from e c t sp from amt w = Ok (u, w') ->
  authed e c sp = true /\ 0 <= amt /\ exists k k0,
    tk_spend_allowance (w_seq w) from sp amt k = Ok k0 /\ amt <= tk_balance from k0 /\
    TokUpd t k (tk_log_burn amt (tk_write_balance from (tk_balance from k0 - amt) k0)) w w'.
Proof.
  unfold tok_burn_from. intros H. rstep H.
  match goal with R : require_auth _ _ _ _ = Ok _ |- _ => apply require_auth_ok in R; destruct R as [? ->] end.
  match goal with R : upd_tok _ _ _ = Ok _ |- _ => apply upd_tok_ok in R; destruct R as [k [k' [E [F ->]]]] end.
  rstep F.
  match goal with A : nonneg _ = true |- _ => apply nonneg_true in A end.
  match goal with R : tk_spend _ _ _ = Ok _ |- _ => apply tk_spend_ok in R; destruct R as [-> ?] end.
  destr_pair. repeat split; auto. eexists _, _. repeat split; eauto.
Qed.

Lemma tok_approve_ok e c t from sp amt ex w u w' :
  tok_approve e c t from sp amt ex w = Ok (u, w') ->
  authed e c from = true /\ 0 <= amt /\ exists k k',
    tk_write_allowance (w_seq w) from sp amt ex k = Ok k' /\ TokUpd t k k' w w'.
Proof.
  unfold tok_approve. intros H. rstep H.
  match goal with R : require_auth _ _ _ _ = Ok _ |- _ => apply require_auth_ok in R; destruct R as [? ->] end.
  match goal with R : upd_tok _ _ _ = Ok _ |- _ => apply upd_tok_ok in R; destruct R as [k [k' [E [F ->]]]] end.
  match goal with A : nonneg _ = true |- _ => apply nonneg_true in A end.
  repeat split; auto. eexists _, _. repeat split; eauto.
Qed.

Lemma tok_set_admin_ok e c t a w u w' :
  tok_set_admin e c t a w = Ok (u, w') ->
  exists k, authed e c (t_admin k) = true /\ TokUpd t k (tk_set_admin a k) w w'.
Proof.
  unfold tok_set_admin. intros H. rstep H.
  match goal with R : get_tok _ _ = Ok _ |- _ => apply get_tok_ok in R; destruct R as [Ek ->] end.
  match goal with R : require_auth _ _ _ _ = Ok _ |- _ => apply require_auth_ok in R; destruct R as [? ->] end.
  match goal with R : upd_tok _ _ _ = Ok _ |- _ => apply upd_tok_ok in R; destruct R as [k [k' [E [F ->]]]] end.
  rewrite Ek in E; inversion E; subst. inversion F; subst.
  eexists; repeat split; eauto.
Qed.

Lemma deploy_ok a k w u w' : deploy a k w = Ok (u, w') ->
  0 <= a /\ fget a (w_code w) = None /\ w' = set_code w (fset a k (w_code w)).
Proof.
  unfold deploy. intros H. rstep H.
  match goal with G : _ && _ = true |- _ => apply andb_true_iff in G; destruct G as [G1 G2] end.
  unfold fmem in G2. destruct (fget a (w_code w)); [discriminate|].
  repeat split; auto. lia.
Qed.

Lemma tok_deploy_ok t a d w u w' : tok_deploy t a d w = Ok (u, w') ->
  0 <= t /\ 0 <= d <= 18 /\ fget t (w_code w) = None /\
  w' = set_tok (set_code w (fset t KTok (w_code w))) (fset t (mkToken a d fempty fempty 0 0) (w_tok w)).
Proof.
  unfold tok_deploy, put_tok. intros H. rstep H.
  match goal with R : deploy _ _ _ = Ok _ |- _ => apply deploy_ok in R; destruct R as [? [? ->]] end.
  destr_pair. repeat split; auto; lia.
Qed.

Lemma new_tok_good a d : 0 <= d <= 18 -> TokGood (mkToken a d fempty fempty 0 0).
Proof.
  intros. constructor; simpl; auto.
  - intros. unfold tk_balance, fgetd; simpl. unfold I128_MAX; lia.
  - tauto.
  - intros f s x y H2. unfold tk_allow_entry in H2; simpl in H2. discriminate.
  - exact I.
Qed.
