(** C72: derivatives held at the end of Python sessions. *)
From Coq Require Import ZArith List Bool Reals Lra Lia.
From Coquelicot Require Import Coquelicot.
From Verif Require Import Outcome Scalar Model Spec ArrSpec Core Kernels OpsRep AccRep PadRep RealOps Deriv UDeriv BDeriv
  FactsLayout FactsCtor FactsOps ExprSpec Expr Struct FactsExpr Chain FactsReal Cont ProgSpec Prog FactsProg
  ModelObj ObjSpec ValSpec FactsObj FactsSess FactsVal Samples DispSpec FactsDisp SessSpec.
Import ListNotations.

Lemma put_app_end {A} (l : list A) x y : put (l ++ [x]) (length l) y = l ++ [y].
Proof. induction l as [|a l IH]; cbn; [reflexivity|]. f_equal. exact IH. Qed.
Lemma vals_app es e q : FactsProg.vals (es ++ [e]) q = FactsProg.vals es q ++ [rev e q].
Proof. unfold FactsProg.vals. rewrite map_app. reflexivity. Qed.

Section Sess.
  Context (c : cfg) (n : nat) (p : nat -> R) (Hc : cfg_ok c) (HE : c_exc c = true) (SO : size_ok c n).
  Let env : nat -> jet R := fun i => jvar Rops i (p i).

  (** Object number [o] holds the result of [e]. *)
  Definition gives (e : expr R) (x : dd R) : Prop :=
    vars_below n e /\ dom e p /\ rep c n (jev Rops env e) x.
  Record ready (es : list (expr R)) (v : vheap R) : Prop := {
    R_vals : Forall2 gives es (ValSpec.vals v);
    R_names : forall r o, vnames v r = Some o -> (o < length es)%nat;
    R_wins : forall w o f k, wins v w = Some (o, f, k) -> (o < length es)%nat /\ (f + k <= storage_len (c_ord c) n)%nat }.
  Definition float (es : list (expr R)) (v : vheap R) (q : nat -> R) : fheap := mkf (FactsProg.vals es q) (vnames v).

  Lemma gives_intro e x J : vars_below n e -> dom e p -> jeq 2 n (jev Rops env e) J -> rep c n J x -> gives e x.
  Proof.
    intros V D (Q0 & Q1 & Q2) R. split; [exact V|]. split; [exact D|]. eapply rep_jeq; [|exact R]. apply jeq_sym.
    split; [exact Q0|]. split; [exact Q1|]. intros _. apply Q2. lia.
  Qed.

  Lemma ready_obj es v r o : ready es v -> vnames v r = Some o -> exists e x,
    nth_error es o = Some e /\ nth_error (ValSpec.vals v) o = Some x /\ gives e x.
  Proof.
    intros [V N W] Hr. pose proof (N _ _ Hr) as L. destruct (nth_error es o) as [e|] eqn:E; [|apply nth_error_None in E; lia].
    destruct (nth_error (ValSpec.vals v) o) as [x|] eqn:X; [|apply nth_error_None in X; rewrite <- (Forall2_len _ _ _ V) in X; lia].
    exists e, x. split; [reflexivity|]. split; [reflexivity|].
    assert (G : forall l l' k, Forall2 gives l l' -> nth_error l k = Some e -> nth_error l' k = Some x -> gives e x).
    { intros l l' k F. revert k. induction F; intros [|k] A B; try discriminate; cbn in A, B; [congruence|eauto]. }
    eapply G; eauto.
  Qed.
  Lemma float_get es v q r : ready es v ->
    fget (float es v q) r = match vnames v r with Some o => option_map (fun e => rev e q) (nth_error es o) | None => None end.
  Proof.
    intros RD. unfold fget, float. cbn. destruct (vnames v r) as [o|]; [|reflexivity]. unfold FactsProg.vals. apply nth_error_map.
  Qed.

  (** A statement that is not executed, or executed with its effect on the expressions. *)
  Definition okstep (es : list (expr R)) (v : vheap R) (s : pstmt R) (m : vres (S:=R)) : Prop :=
    exists e v' es', m = Ok (e, v') /\ ready es' v' /\ (forall q, fstep q s (float es v q) = float es' v' q).
  Lemma ok_same es v s e : ready es v -> (forall q, fstep q s (float es v q) = float es v q) -> okstep es v s (Ok (e, v)).
  Proof. intros H Q. exists e, v, es. auto. Qed.

  Lemma ready_new es v r e x : ready es v -> gives e x ->
    ready (es ++ [e]) (mkv (ValSpec.vals v ++ [x]) (bind_name (vnames v) r (length (ValSpec.vals v))) (wins v)).
  Proof.
    intros [V N W] G. pose proof (Forall2_len _ _ _ V) as L. split; cbn.
    - apply Forall2_app; [exact V|]. constructor; [exact G|constructor].
    - intros k o. rewrite app_length. cbn. unfold bind_name. destruct (Nat.eqb k r); [intros E; injection E as <-; lia|].
      intros E. specialize (N _ _ E). lia.
    - intros w o f k E. rewrite app_length. cbn. specialize (W _ _ _ _ E). lia.
  Qed.
  Lemma float_new es v r e x q : ready es v ->
    float (es ++ [e]) (mkv (ValSpec.vals v ++ [x]) (bind_name (vnames v) r (length (ValSpec.vals v))) (wins v)) q =
    fnew (float es v q) r (Some (rev e q)).
  Proof.
    intros [V N W]. unfold float, fnew. cbn. rewrite vals_app. f_equal. f_equal. unfold FactsProg.vals.
    rewrite map_length. symmetry. apply (Forall2_len _ _ _ V).
  Qed.
  Lemma ok_new es v s r e m : ready es v -> (exists x, m = Ok x /\ gives e x) ->
    (forall q, fstep q s (float es v q) = fnew (float es v q) r (Some (rev e q))) -> okstep es v s (vnew v r m).
  Proof.
    intros RD (x & -> & G) Q. unfold vnew. cbn [vtry]. eexists _, _, (es ++ [e]). split; [reflexivity|].
    split; [apply ready_new; assumption|]. intros q. rewrite Q. symmetry. apply float_new, RD.
  Qed.
  Lemma ok_put es v s r o e m : ready es v -> vnames v r = Some o -> (exists x, m = Ok x /\ gives e x) ->
    (forall q, fstep q s (float es v q) = fset (float es v q) r (Some (rev e q))) -> okstep es v s (vput v o m).
  Proof.
    intros RD Hr (x & -> & G) Q. unfold vput. cbn [vtry]. eexists _, _, (put es o e). split; [reflexivity|]. split.
    - destruct RD as [V N W]. split; cbn; rewrite ?put_length; try assumption. apply put_Forall2; assumption.
    - intros q. rewrite Q. unfold fset, float. cbn. rewrite Hr. unfold FactsProg.vals. rewrite put_map. reflexivity.
  Qed.
  Lemma ok_get es v s r k : ready es v ->
    (vnames v r = None -> forall q, fstep q s (float es v q) = float es v q) ->
    (forall o e x, vnames v r = Some o -> nth_error es o = Some e -> nth_error (ValSpec.vals v) o = Some x -> gives e x ->
       okstep es v s (k o x)) -> okstep es v s (vget v r k).
  Proof.
    intros RD Q K. unfold vget. destruct (vnames v r) as [o|] eqn:Hr; [|apply ok_same; auto].
    destruct (ready_obj es v r o RD Hr) as (e & x & E & X & G). rewrite X. eapply K; eauto.
  Qed.

  Lemma assign_gives op e1 e2 x y (same : bool) : gives e1 x -> gives e2 y -> (same = true -> e1 = e2 /\ x = y) ->
    (op = Amul -> c_ord c = 1%Z \/ same = false) -> (op = Adiv -> rev e2 p <> 0%R) ->
    exists z, assign Rops c op x (if same then None else Some y) = Ok z /\
      gives (EB (match op with Aadd => Badd | Asub => Bsub | Amul => Bmul | Adiv => Bdiv end) e1 e2) z.
  Proof.
    intros G1 G2 SM AM AD. destruct G1 as (V1 & D1 & R1), G2 as (V2 & D2 & R2).
    set (J1 := jev Rops env e1) in *. set (J2 := jev Rops env e2) in *.
    destruct (match op with Amul => same | _ => false end) eqn:SP.
    { destruct op; try discriminate. subst same. destruct (SM eq_refl) as (<- & <-). destruct (AM eq_refl) as [O1|]; [|discriminate].
      destruct (mul_assign_self Rops c n J1 x R1) as (z & E & R). exists z. split; [exact E|].
      split; [cbn; auto|]. split; [cbn; auto|]. eapply rep_jeq; [|exact R]. cbn [jev jap_b k_b]. fold J1.
      unfold jmul_self, k_mul, jap_b, k_b, k_mul, jb6. split; [reflexivity|]. split; [intros; rcbn; ring|]. intros N. congruence. }
    set (es := [e1; e2]). set (js := [J1; J2]). set (st := [x; y]).
    assert (HO : okr c n js st) by (constructor; [exact R1|constructor; [exact R2|constructor]]).
    set (a := if same then 0%nat else 1%nat).
    assert (La : (a < length js)%nat) by (subst a js; cbn; destruct same; lia).
    assert (HH : FactsProg.holds n env es js) by (constructor; [apply jeq_refl|constructor; [apply jeq_refl|constructor]]).
    assert (GG : FactsProg.good n p es) by (split; repeat constructor; assumption).
    assert (EA : ereg es a = e2) by (subst a es; destruct same; cbn; [apply SM|]; reflexivity).
    assert (SF : ProgSpec.safe_step (PAsg op 0 a) (FactsProg.vals es p)).
    { cbn [ProgSpec.safe_step]. destruct op; auto.
      - subst a. rewrite SP. intros Q; discriminate Q.
      - unfold FactsProg.vals. rewrite reg_map by exact La. fold (ereg es a). rewrite EA. auto. }
    assert (B : regs_below (length es) (PAsg (S:=R) op 0 a)) by (split; [subst es; cbn; lia|exact La]).
    pose proof (sstep_good n p _ es GG B SF) as (W1 & W2).
    pose proof (sstep_holds n p env _ es js ltac:(reflexivity) GG B SF HH) as HS.
    destruct (assign_ok Rops c n Hc op J1 x 0%nat a js st HO La R1) as (y' & EY & z & EZ & RZ).
    exists z. split.
    - rewrite <- EZ. subst a st. destruct same; cbn in EY |- *; [reflexivity|]. injection EY as <-. reflexivity.
    - unfold sstep in W1, W2, HS. cbn [assigned] in W1, W2, HS. rewrite EA in W1, W2, HS.
      subst es. cbn in W1, W2. apply Forall_inv in W1. apply Forall_inv in W2.
      cbn [jstep] in HS. cbn [put] in HS. inversion HS; subst. eapply gives_intro; [exact W1|exact W2|eassumption|exact RZ].
  Qed.
  Lemma assign_s_gives op e x k : gives e x -> (op = Adiv -> k <> 0%R) ->
    exists z, assign_s Rops op x k = Ok z /\
      gives (EU (match op with Aadd => Uadds k | Asub => Usubs k | Amul => Umuls k | Adiv => Udivs k end) e) z.
  Proof.
    intros (V & D & RP) NZ. destruct (assign_s_ok Rops c n op _ x k RP) as (z & E & RZ). exists z. split; [exact E|].
    split; [exact V|]. split; [destruct op; cbn; auto|]. destruct op; exact RZ.
  Qed.
  Lemma u_gives u e x : gives e x -> udom u (rev e p) -> exists z, apply_u Rops c u x = Ok z /\ gives (EU u e) z.
  Proof.
    intros (V & D & RP) U. destruct (apply_u_rep Rops c Hc n _ x u RP) as (z & E & RZ). exists z. split; [exact E|].
    split; [exact V|]. split; [split; assumption|exact RZ].
  Qed.
  Lemma b_gives b e1 e2 x y : gives e1 x -> gives e2 y -> bdom b (rev e1 p) (rev e2 p) ->
    exists z, apply_b Rops c b x y = Ok z /\ gives (EB b e1 e2) z.
  Proof.
    intros (V & D & RP) (V' & D' & RP') U.
    destruct (apply_b_rep Rops c Hc n _ _ x y b RP RP') as (z & E & RZ). exists z. split; [exact E|].
    split; [split; assumption|]. split; [split; [|split]; assumption|exact RZ].
  Qed.
  Lemma h_gives e1 e2 e3 x y w : gives e1 x -> gives e2 y -> gives e3 w -> hdom (rev e1 p) (rev e2 p) (rev e3 p) ->
    exists z, hypot3 Rops c x y w = Ok z /\ gives (EH e1 e2 e3) z.
  Proof.
    intros (V & D & RP) (V' & D' & RP') (V2 & D2 & RP2) U.
    destruct (hypot3_rep Rops c Hc n _ _ _ x y w RP RP' RP2) as (z & E & RZ). exists z. split; [exact E|].
    split; [cbn; tauto|]. split; [cbn; tauto|exact RZ].
  Qed.
  Lemma gives_size e x : gives e x -> size c x = Z.of_nat n.
  Proof. intros (_ & _ & R). eapply size_rep, R. Qed.

  Ltac fl := unfold fget, float, FactsProg.vals; cbn [fnames cells]; rewrite ?nth_error_map.
  Ltac fstp := intros; cbn [fstep]; fl; repeat match goal with H : vnames _ _ = _ |- _ => rewrite H end; cbn; rewrite ?nth_error_map;
               repeat match goal with H : nth_error _ _ = _ |- _ => rewrite H end; cbn; try reflexivity.

  Lemma vstep_ok es v s : ready es v -> arithmetic n p s -> fsafe (c_ord c) s (float es v p) -> vlegal c s v /\ okstep es v s (vstep Rops c s v).
  Proof.
    intros RD AR SF.
    assert (SZ : forall r m, vsize c v r m -> m = Z.of_nat n).
    { intros r m (o & x & Hr & X & <-). destruct (ready_obj es v r o RD Hr) as (e & x' & E & X' & G).
      assert (x' = x) by congruence. subst x'. eapply gives_size, G. }
    destruct s; cbn [arithmetic] in AR; try contradiction; cbn [vlegal vstep].
    - (* constant *) subst. split; [intros _; exists n; auto|].
      eapply ok_new with (e := EConst v0); [exact RD| |reflexivity].
      destruct (constant_n_rep Rops c n v0 SO) as (x & E & R). exists x. split; [exact E|].
      split; [exact I|]. split; [exact I|exact R].
    - (* variable *) destruct AR as (-> & Hi & ->). split; [split; [exact Hi|intros _; exists n; auto]|].
      eapply ok_new with (e := EVar (Z.to_nat i)); [exact RD| |reflexivity].
      destruct (variable_n_rep Rops c n (Z.to_nat i) (p (Z.to_nat i)) SO ltac:(lia)) as (x & E & R). rewrite Z2Nat.id in E by lia.
      exists x. split; [exact E|]. split; [cbn; lia|]. split; [exact I|exact R].
    - (* alias *) split; [exact I|]. apply ok_get; [exact RD|fstp|]. intros o e x Hr E X G. eexists _, _, es. split; [reflexivity|]. split.
      + destruct RD as [V N W]. split; cbn; try assumption. intros k o'. unfold bind_name. destruct (Nat.eqb k r); [|apply N].
        intros Q. injection Q as <-. eapply N, Hr.
      + fstp.
    - (* copy *) split; [exact I|]. apply ok_get; [exact RD|fstp|]. intros o e x Hr E X G.
      eapply ok_new with (e := e); [exact RD|eauto|fstp].
    - split; [exact I|]. apply ok_get; [exact RD|fstp|]. intros o e x Hr E X G.
      eapply ok_new with (e := EU u e); [exact RD| |fstp]. apply u_gives; [exact G|].
      apply SF. fstp.
    - split. { destruct b; try exact I. intros m k Hm Hk. rewrite (SZ _ _ Hm), (SZ _ _ Hk). reflexivity. }
      apply ok_get; [exact RD|fstp|]. intros o e x Hr E X G. apply ok_get; [exact RD|fstp|]. intros o' e' x' Hr' E' X' G'.
      eapply ok_new with (e := EB b e e'); [exact RD| |fstp]. apply b_gives; [exact G|exact G'|]. apply SF; fstp.
    - split. { intros m k Hm Hk. rewrite (SZ _ _ Hm), (SZ _ _ Hk). reflexivity. }
      apply ok_get; [exact RD|fstp|]. intros o e x Hr E X G. apply ok_get; [exact RD|fstp|]. intros o' e' x' Hr' E' X' G'.
      apply ok_get; [exact RD|fstp|]. intros o2 e2 x2 Hr2 E2 X2 G2.
      eapply ok_new with (e := EH e e' e2); [exact RD| |fstp]. apply h_gives; [exact G|exact G'|exact G2|]. apply SF; fstp.
    - (* x op= y *) split; [exact I|]. apply ok_get; [exact RD| |].
      { intros Ha q. cbn [fstep]. unfold fset. fl. cbn. rewrite Ha. destruct (vnames v r) as [o'|]; [|reflexivity].
        unfold lift2. destruct (nth_error _ o'); reflexivity. }
      intros oa e2 y Ha E2 Y G2. apply ok_get; [exact RD|intros Hr q; cbn [fstep]; unfold fset; cbn; rewrite Hr; reflexivity|]. intros o0 e1 x Hr E1 X G1.
      eapply ok_put; [exact RD|exact Hr| |].
      + apply (assign_gives o e1 e2); [exact G1|exact G2| | |].
        * destruct (Nat.eqb_spec oa o0) as [->|N]; [|discriminate]. intros _. split; congruence.
        * intros ->. cbn in SF. destruct SF as [O1|SF]; [left; exact O1|right]. apply Nat.eqb_neq. intros ->. apply (SF o0 Hr Ha).
        * intros ->. cbn in SF. intros Z. apply SF. fstp. f_equal. exact Z.
      + fstp. unfold fset. cbn. rewrite Hr. destruct o; reflexivity.
    - (* x op= k *) split; [exact I|]. apply ok_get; [exact RD| |].
      { intros Hr q. destruct o; fstp; unfold fset; cbn; rewrite ?Hr; reflexivity. }
      intros o' e x Hr E X G. destruct o.
      + eapply ok_new with (e := EU (Uadds v0) e); [exact RD| |fstp]. apply u_gives; [exact G|exact I].
      + eapply ok_new with (e := EU (Usubs v0) e); [exact RD| |fstp]. apply u_gives; [exact G|exact I].
      + eapply ok_put; [exact RD|exact Hr|apply (assign_s_gives Amul); [exact G|discriminate]|].
        fstp.
      + eapply ok_put; [exact RD|exact Hr|apply (assign_s_gives Adiv); [exact G|intros _; exact SF]|].
        fstp.
    - (* g *) split; [exact I|]. apply ok_get; [exact RD|reflexivity|]. intros o e x Hr E X G.
      rewrite (gives_size _ _ G). destruct (Z.of_nat n <? 0)%Z eqn:ZN; [apply Z.ltb_lt in ZN; lia|].
      eexists _, _, es. split; [reflexivity|]. split; [|reflexivity]. destruct RD as [V N W]. split; cbn; try assumption.
      intros k o' f m. unfold bind_name. destruct (Nat.eqb k w); [|apply W]. intros Q. injection Q as <- <- <-.
      split; [eapply N, Hr|]. rewrite Nat2Z.id. pose proof (storage_len_ge (c_ord c) n). lia.
    - (* data *) split; [exact I|]. apply ok_get; [exact RD|reflexivity|]. intros o e x Hr E X G.
      eexists _, _, es. split; [reflexivity|]. split; [|reflexivity]. destruct RD as [V N W]. split; cbn; try assumption.
      intros k o' f m. unfold bind_name. destruct (Nat.eqb k w); [|apply W]. intros Q. injection Q as <- <- <-.
      split; [eapply N, Hr|]. destruct G as (_ & _ & R). rewrite (rep_length _ _ _ _ R). lia.
    - (* read *) split; [exact I|]. destruct (wins v w) as [[[o f] m]|] eqn:EW; [|apply ok_same; [exact RD|reflexivity]].
      destruct (vindex m i) as [k|] eqn:EI.
      + destruct (R_wins _ _ RD _ _ _ _ EW) as (L & FK).
        destruct (nth_error (ValSpec.vals v) o) as [x|] eqn:X.
        2:{ apply nth_error_None in X. rewrite <- (Forall2_len _ _ _ (R_vals _ _ RD)) in X. lia. }
        assert (HK : (k < m)%nat).
        { unfold vindex in EI. cbv zeta in EI. destruct ((- Z.of_nat m <=? i) && (i <? Z.of_nat m))%Z eqn:EB; [|discriminate].
          injection EI as <-. apply andb_true_iff in EB. destruct EB as (B1 & B2). apply Z.leb_le in B1. apply Z.ltb_lt in B2.
          destruct (i <? 0)%Z eqn:E0; [apply Z.ltb_lt in E0|apply Z.ltb_ge in E0]; lia. }
        assert (exists J, rep c n J x) as (J & R).
        { destruct RD as [V _ _]. clear - V X.
          revert o X. induction V as [|e y l l' G V IH]; intros [|o] X; try discriminate; cbn in X; [|eauto].
          injection X as ->. destruct G as (_ & _ & R). eauto. }
        rewrite (rd_rep c n J x (f + k) 0%R R) by lia. cbn [vtry]. apply ok_same; [exact RD|reflexivity].
      + destruct (nth_error (ValSpec.vals v) o); apply ok_same; try exact RD; reflexivity.
  Qed.

  Lemma vsession_ok w : forall es v, ready es v -> List.Forall (arithmetic n p) w -> fsafe_session (c_ord c) p w (float es v p) ->
    vlegal_session Rops c w v /\
    exists xs v' es', vsession Rops c w v = Ok (xs, v') /\ ready es' v' /\ (forall q, fsession q w (float es v q) = float es' v' q).
  Proof.
    induction w as [|s w IH]; intros es v RD AR SF.
    - split; [exact I|]. exists [], v, es. auto.
    - cbn [fsafe_session] in SF. destruct SF as (SF & SW). inversion AR; subst.
      destruct (vstep_ok es v s RD ltac:(assumption) SF) as (L & e & v1 & es1 & E & RD1 & Q).
      rewrite Q in SW. destruct (IH es1 v1 RD1 ltac:(assumption) SW) as (LW & xs & v' & es' & EW & RD' & QW).
      cbn [vlegal_session vsession]. rewrite E. cbn [bind]. split; [split; assumption|].
      rewrite EW. cbn [bind]. eexists _, v', es'. split; [reflexivity|]. split; [exact RD'|].
      intros q. cbn [fsession]. rewrite Q. apply QW.
  Qed.
  Lemma ready_start : ready [] vstart.
  Proof. split; cbn; [constructor|discriminate|discriminate]. Qed.
End Sess.

Lemma session_derivatives c n p slack w : cfg_ok c -> c_exc c = true -> size_ok c n ->
  List.Forall (arithmetic n p) w -> fsafe_session (c_ord c) p w fstart ->
  legal_session Rops c slack w start /\
  exists st, session Rops c slack w start = Ok st /\
    (forall r, names st r = fnames (fsession p w fstart) r) /\
    forall r o, names st r = Some o ->
      let F := session_value w r in
      exists x g h, load st o = Ok x /\ shows c n x (F p) g h /\
        (forall i, (i < n)%nat -> partial F i p (g i)) /\
        (forall i j, (i < n)%nat -> (j < n)%nat -> partial2 F i j p (h i j)).
Proof.
  intros Hc HE SO AR SF.
  destruct (vsession_ok c n p Hc SO w [] vstart (ready_start c n p) AR SF) as (L & xs & v & es & EV & RD & Q).
  destruct (sessions_are_values Rops c slack w Hc HE (fun _ => ex_intro _ n SO)) as (LL & K).
  split; [apply LL, L|]. destruct (K (proj2 LL L)) as (xs' & st & v' & _ & ES & EV' & HD).
  rewrite EV in EV'. injection EV' as <- <-. destruct HD as (H1 & H2 & H3 & H4).
  assert (FS : forall q, fsession q w fstart = float es v q) by (intros q; rewrite <- Q; reflexivity).
  exists st. split; [exact ES|]. split; [intros r; rewrite FS, H3; reflexivity|].
  intros r o Hr. cbv zeta. rewrite H3 in Hr. destruct (ready_obj c n p es v r o RD Hr) as (e & x & E & X & G).
  assert (HF : forall q, rev e q = session_value w r q).
  { intros q. unfold session_value. rewrite FS, (float_get c n p es v q r RD), Hr, E. reflexivity. }
  destruct G as (V & D & RX).
  destruct (point_derivs n e p V D) as (P0 & P1 & P2).
  eexists x, _, _. split; [apply H2, X|]. split; [|split].
  - eapply shows_ext; [apply rep_shows, RX| | |]; [|intros; reflexivity|intros; reflexivity]. rewrite P0. apply HF.
  - intros i Hi. apply (partial_ext (rev e)); auto.
  - intros i j Hi Hj. apply (partial2_ext (rev e)); auto.
Qed.

(** [y = x; x *= y] on numbers of second order. *)
Definition aliased_product : list (pstmt R) := [NVar 0 0 3 1; Alias 1 0; IAsg Amul 0 1]%R.
Lemma aliased_product_wrong : exists st x h,
  List.Forall (arithmetic 1 (fun _ => 3%R)) aliased_product /\
  session Rops dyn2 (fun _ => 0%nat) aliased_product start = Ok st /\
  names st 0%nat = Some 0%nat /\ load st 0 = Ok x /\ get_h dyn2 x 0 0 = Ok h /\ h = 12%R /\
  partial2 (session_value aliased_product 0) 0 0 (fun _ => 3%R) 2%R.
Proof.
  eexists _, _, _. split. { repeat constructor; cbn; lia. }
  split; [lazy -[Rplus Rmult Rminus Ropp Rinv IZR]; reflexivity|].
  split; [reflexivity|]. split; [reflexivity|]. split; [reflexivity|]. split; [lra|].
  set (e := EB Bmul (EVar 0) (EVar 0) : expr R).
  destruct (point_derivs 1 e (fun _ => 3%R)) as (P0 & P1 & P2); [cbn; lia|cbn; tauto|].
  specialize (P2 0%nat 0%nat ltac:(lia) ltac:(lia)).
  assert (E : hess (jev Rops (fun i => jvar Rops i 3%R) e) 0 0 = 2%R).
  { lazy -[Rplus Rmult Rminus Ropp Rinv IZR]. lra. }
  rewrite E in P2. revert P2. apply partial2_ext. intros q. reflexivity.
Qed.
