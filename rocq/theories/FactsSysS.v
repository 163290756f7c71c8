(** Derivatives of the solutions of systems of equations from iterations with sparse numbers. *)
From Coq Require Import ZArith List Bool String Permutation Reals Lra Lia Psatz FunctionalExtensionality.
From Coquelicot Require Import Coquelicot.
From Verif Require Import Outcome Scalar Model Spec RealOps ExprSpec NumSpec Deriv FactsExpr Expr OpsRep FactsSessS Chain Cont NestSpec FactsNest
  ParamSpec FactsImpl SysSpec FactsSys ModelS SpecS SysSSpec FactsS FactsSReal FactsMeanS.
Import ListNotations.
Open Scope R_scope.

Lemma sweep_solver es m nm p X0 : s_solver es m nm p (s_sweep es m nm p X0).
Proof. intros k i Hi. cbn [s_sweep]. apply run_runs. Qed.

Lemma shadow_reorders n nm J x y : shadow n nm J x -> reorders x y -> shadow n nm J y.
Proof.
  intros (K & F & G) RO. destruct (reorders_reads Rops _ _ K RO) as (Rf & _ & Rd). split; [eapply reorders_keys; eassumption|].
  split; [unfold s_get_f in Rf; congruence|]. intros i Hi. rewrite <- Rd. apply G, Hi.
Qed.
Lemma runs_shadow n nm env jenv e x : (forall i, keys_ok (env i)) -> (forall i, occurs i e -> shadow n nm (jenv i) (env i)) ->
  s_runs Rops env e x -> shadow n nm (jev Rops jenv e) x.
Proof.
  intros K H R. apply (shadow_reorders n nm _ (s_run Rops env e)); [apply sh_ev, H|].
  exact (runs_unique Rops _ _ _ _ K (fun i => reorders_refl _) (run_runs Rops env e) _ R).
Qed.
(** The chain rule for the derivative by any name. *)
Lemma runs_chain N env e x w : vars_below N e -> (forall i, keys_ok (env i)) -> s_runs Rops env e x ->
  gd x w = rsum N (fun i => jg (jat e (fun i => s_f (env i))) i * gd (env i) w).
Proof.
  intros HV K R. set (jenv := fun i => mkjet (s_f (env i)) (fun _ => gd (env i) w) (fun _ _ => 0)).
  destruct (runs_shadow 1 (fun _ => w) env jenv e x K) as (_ & _ & G); [|exact R|].
  - intros i _. split; [apply K|]. split; [reflexivity|]. intros j _. reflexivity.
  - rewrite (G 0%nat) by lia. destruct (ch_ev N jenv e HV) as (_ & C1 & _). rewrite C1. reflexivity.
Qed.

Section Sweeps.
  Context (n m : nat) (nm : nat -> string) (es : list (expr R)) (p : nat -> R) (X : nat -> nat -> ss R).
  Hypothesis D : distinct n nm.
  Hypothesis Hm : List.length es = m.
  Hypothesis HV : List.Forall (vars_below (m + n)) es.
  Hypothesis K0 : forall i, (i < m)%nat -> keys_ok (X 0%nat i).
  Hypothesis HS : s_solver es m nm p X.
  Let J := fun i => mkjet (s_f (X 0%nat i)) (fun s => gd (X 0%nat i) (nm s)) (fun _ _ => 0).

  Lemma env_keys k : (forall i, (i < m)%nat -> keys_ok (X k i)) -> forall i, keys_ok (s_env m nm p (X k) i).
  Proof. intros H i. unfold s_env. destruct (Nat.ltb_spec i m); [auto|apply keys_ok_var]. Qed.

  Lemma sweeps_shadow : forall k i, (i < m)%nat -> shadow n nm (siter es m p J k i) (X k i).
  Proof.
    induction k as [|k IH]; intros i Hi.
    - split; [apply K0, Hi|]. split; [reflexivity|]. intros s _. reflexivity.
    - cbn [siter]. eapply runs_shadow; [|intros j Hj|exact (HS k i Hi)].
      + apply env_keys. intros j Hj. apply (IH j Hj).
      + unfold s_env, senv. destruct (Nat.ltb_spec j m) as [H|H]; [apply IH, H|]. apply sh_var; [exact D|].
        apply (vars_occurs (m + n)) in Hj; [lia|]. apply (Forall_nth_in _ es _ i HV). lia.
  Qed.
  Lemma sweeps_keys k i : (i < m)%nat -> keys_ok (X k i).
  Proof. intros Hi. apply (sweeps_shadow k i Hi). Qed.
  Lemma sweeps_f k i : (i < m)%nat -> s_get_f (X k i) = jf (siter es m p J k i).
  Proof. intros Hi. apply (sweeps_shadow k i Hi). Qed.
  Lemma sweeps_d k i s : (i < m)%nat -> (s < n)%nat -> gd (X k i) (nm s) = jg (siter es m p J k i) s.
  Proof. intros Hi Hs. apply (sweeps_shadow k i Hi), Hs. Qed.
  Lemma env_f k : (fun i => s_f (s_env m nm p (X k) i)) = with_xs m (fun i => s_get_f (X k i)) p.
  Proof. apply functional_extensionality. intros i. unfold s_env, with_xs, s_get_f. destruct (Nat.ltb i m); reflexivity. Qed.
  (** The derivatives by other names. *)
  Lemma sweeps_other w k i : (forall s, (s < n)%nat -> w <> nm s) -> (i < m)%nat ->
    gd (X (S k) i) w = rsum m (fun j => jg (jat (nth i es (EConst 0)) (with_xs m (fun i => s_get_f (X k i)) p)) j * gd (X k j) w).
  Proof.
    intros Hw Hi. rewrite (runs_chain (m + n) _ _ _ w (Forall_nth_in _ es _ i HV ltac:(lia)) (env_keys k (fun j => sweeps_keys k j)) (HS k i Hi)).
    rewrite env_f, rsum_split. rewrite (rsum_ext n _ (fun _ => 0)).
    - rewrite rsum_zero, Rplus_0_r. apply rsum_ext. intros j Hj. unfold s_env. rewrite (proj2 (Nat.ltb_lt j m) Hj). reflexivity.
    - intros s Hs. unfold s_env. rewrite ltb_add. replace (m + s - m)%nat with s by lia.
      rewrite (absent_zero Rops (s_variable Rops (nm s) (p s)) w); [cbn; ring|]. cbn. intros [E|[]]. exact (Hw s Hs (eq_sym E)).
  Qed.

  (** ** At the solution *)
  Section At.
    Context (xi : (nat -> R) -> nat -> R) (Q : nat -> nat -> R).
    Hypothesis DD : List.Forall (fun e => dom e (with_xs m (xi p) p)) es.
    Hypothesis EX : is_solution es m (xi p) p.
    Hypothesis SN : system_near n (is_solution es m) p xi.
    Hypothesis PQ : forall i j, (i < m)%nat -> (j < m)%nat -> partial (eq_at es i) j (with_xs m (xi p) p) (Q i j).
    Hypothesis F0 : forall i, (i < m)%nat -> s_get_f (X 0%nat i) = xi p i.
    Let L := fun i => jat (nth i es (EConst 0)) (with_xs m (xi p) p).
    Lemma J_xi q : with_xs m (fun i => jf (J i)) q = with_xs m (xi p) q.
    Proof. apply functional_extensionality. intros s. unfold with_xs. destruct (Nat.ltb_spec s m) as [Hs|Hs]; [apply (F0 s Hs)|reflexivity]. Qed.
    Lemma at_f k i : (i < m)%nat -> s_get_f (X k i) = xi p i.
    Proof.
      intros Hi. rewrite sweeps_f by exact Hi. rewrite (siter_f m n es p J Hm HV); [apply F0, Hi| | |exact Hi].
      - rewrite J_xi. exact DD.
      - intros j Hj. rewrite J_xi. rewrite <- (EX j Hj). apply F0, Hj.
    Qed.
    Lemma at_env k : with_xs m (fun i => s_get_f (X k i)) p = with_xs m (xi p) p.
    Proof. apply functional_extensionality. intros s. unfold with_xs. destruct (Nat.ltb_spec s m) as [Hs|Hs]; [apply at_f, Hs|reflexivity]. Qed.
    Lemma at_env' k : with_xs m (fun i => jf (siter es m p J k i)) p = with_xs m (xi p) p.
    Proof. rewrite <- (at_env k). apply functional_extensionality. intros s. unfold with_xs. destruct (Nat.ltb_spec s m) as [Hs|Hs]; [symmetry; apply sweeps_f, Hs|reflexivity]. Qed.
    Lemma at_Q i j : (i < m)%nat -> (j < m)%nat -> jg (L i) j = Q i j.
    Proof.
      intros Hi Hj. apply (jat_partial (m + n)); [apply (Forall_nth_in _ es _ i HV); lia|apply (Forall_nth_in _ es (EConst 0) i DD); lia|lia|apply PQ; assumption].
    Qed.
    Lemma at_step s a : (s < n)%nat -> (forall i, (i < m)%nat -> partial (fun q => xi q i) s p (a i)) ->
      forall k i, (i < m)%nat -> gd (X (S k) i) (nm s) - a i = rsum m (fun j => Q i j * (gd (X k j) (nm s) - a j)).
    Proof.
      intros Hs Pa k i Hi. pose proof (system_jet1 m n es p xi s a Hm HV DD Hs SN Pa i Hi) as Ea. cbv beta zeta in Ea. fold (L i) in Ea.
      destruct (sys_step m n (nth i es (EConst 0)) p (siter es m p J k) (Forall_nth_in _ es _ i HV ltac:(lia))) as (_ & E1 & _). cbv zeta in E1. specialize (E1 s Hs).
      rewrite at_env' in E1. fold (L i) in E1. rewrite sweeps_d by assumption. cbn [siter]. rewrite E1.
      rewrite (rsum_ext m (fun j => Q i j * _) (fun j => jg (L i) j * jg (siter es m p J k j) s - jg (L i) j * a j)).
      - rewrite rsum_minus. lra.
      - intros j Hj. rewrite at_Q, sweeps_d by assumption. ring.
    Qed.
    Lemma at_other w : (forall s, (s < n)%nat -> w <> nm s) -> forall k i, (i < m)%nat -> gd (X (S k) i) w = rsum m (fun j => Q i j * gd (X k j) w).
    Proof.
      intros Hw k i Hi. rewrite sweeps_other by assumption. apply rsum_ext. intros j Hj. rewrite at_env. fold (L i). now rewrite at_Q.
    Qed.
    Lemma at_lim r : r < 1 -> (forall i, (i < m)%nat -> rsum m (fun j => Rabs (Q i j)) <= r) ->
      (forall s a, (s < n)%nat -> (forall i, (i < m)%nat -> partial (fun q => xi q i) s p (a i)) ->
         forall i, (i < m)%nat -> is_lim_seq (fun k => gd (X k i) (nm s)) (a i)) /\
      (forall w, (forall s, (s < n)%nat -> w <> nm s) -> forall i, (i < m)%nat -> is_lim_seq (fun k => gd (X k i) w) 0).
    Proof.
      intros Hr HQ. split.
      - intros s a Hs Pa i Hi. apply lim_to.
        apply (vec_contract m (fun k i => gd (X k i) (nm s) - a i) (fun _ i j => Q i j) (fun _ _ => 0) Q r Hr HQ); [| | |exact Hi].
        + intros. apply is_lim_seq_const.
        + intros. apply is_lim_seq_const.
        + intros k j Hj. rewrite Rplus_0_r. apply at_step; assumption.
      - intros w Hw i Hi. apply (vec_contract m (fun k i => gd (X k i) w) (fun _ i j => Q i j) (fun _ _ => 0) Q r Hr HQ); [| | |exact Hi].
        + intros. apply is_lim_seq_const.
        + intros. apply is_lim_seq_const.
        + intros k j Hj. rewrite Rplus_0_r. apply at_other; assumption.
    Qed.
  End At.
End Sweeps.

Lemma s_system_at n m nm es p X xi Q : distinct n nm -> List.length es = m ->
  List.Forall (vars_below (m + n)) es -> List.Forall (fun e => dom e (with_xs m (xi p) p)) es ->
  is_solution es m (xi p) p -> system_near n (is_solution es m) p xi ->
  (forall i j, (i < m)%nat -> (j < m)%nat -> partial (eq_at es i) j (with_xs m (xi p) p) (Q i j)) ->
  (forall i, (i < m)%nat -> keys_ok (X 0%nat i) /\ s_get_f (X 0%nat i) = xi p i) -> s_solver es m nm p X ->
  (forall k i, (i < m)%nat -> s_get_f (X k i) = xi p i) /\
  (forall s a, (s < n)%nat -> (forall i, (i < m)%nat -> partial (fun q => xi q i) s p (a i)) ->
     forall k i, (i < m)%nat -> gd (X (S k) i) (nm s) - a i = rsum m (fun j => Q i j * (gd (X k j) (nm s) - a j))) /\
  (forall w, (forall s, (s < n)%nat -> w <> nm s) -> forall k i, (i < m)%nat -> gd (X (S k) i) w = rsum m (fun j => Q i j * gd (X k j) w)) /\
  forall r, r < 1 -> (forall i, (i < m)%nat -> rsum m (fun j => Rabs (Q i j)) <= r) ->
    (forall s a, (s < n)%nat -> (forall i, (i < m)%nat -> partial (fun q => xi q i) s p (a i)) ->
       forall i, (i < m)%nat -> is_lim_seq (fun k => gd (X k i) (nm s)) (a i)) /\
    (forall w, (forall s, (s < n)%nat -> w <> nm s) -> forall i, (i < m)%nat -> is_lim_seq (fun k => gd (X k i) w) 0).
Proof.
  intros D Hm HV DD EX SN PQ H0 HS.
  assert (K0 : forall i, (i < m)%nat -> keys_ok (X 0%nat i)) by (intros; apply H0; assumption).
  assert (F0 : forall i, (i < m)%nat -> s_get_f (X 0%nat i) = xi p i) by (intros; apply H0; assumption).
  refine (conj _ (conj _ (conj _ _))).
  - intros k i Hi. eapply at_f; eassumption.
  - intros s a Hs Pa k i Hi. eapply at_step; eassumption.
  - intros w Hw k i Hi. eapply at_other; eassumption.
  - intros r Hr HQ. eapply at_lim; eassumption.
Qed.

Lemma s_system_newton n m nm fs p X xi (D B : nat -> nat -> R) : distinct n nm -> List.length fs = m ->
  List.Forall (vars_below (m + n)) fs -> List.Forall (fun f => dom f (with_xs m (xi p) p)) fs ->
  (forall i, (i < m)%nat -> eq_at fs i (with_xs m (xi p) p) = 0) ->
  system_near n (fun x q => forall i, (i < m)%nat -> eq_at fs i (with_xs m x q) = 0) p xi ->
  (forall i j, (i < m)%nat -> (j < m)%nat -> partial (eq_at fs i) j (with_xs m (xi p) p) (D i j)) ->
  (forall i j, (i < m)%nat -> (j < m)%nat -> rsum m (fun k => B i k * D k j) = if Nat.eqb i j then 1 else 0) ->
  (forall i, (i < m)%nat -> keys_ok (X 0%nat i) /\ s_get_f (X 0%nat i) = xi p i) -> s_solver (newtons B fs) m nm p X ->
  forall k i, (i < m)%nat -> s_get_f (X (S k) i) = xi p i /\
    (forall s a, (s < n)%nat -> (forall i, (i < m)%nat -> partial (fun q => xi q i) s p (a i)) -> gd (X (S k) i) (nm s) = a i) /\
    (forall w, (forall s, (s < n)%nat -> w <> nm s) -> gd (X (S k) i) w = 0).
Proof.
  intros DN Hm HV DF E0 SN PD INV H0 HS. set (P := with_xs m (xi p) p) in *. set (es := newtons B fs) in *.
  assert (Hl : List.length es = m) by (unfold es; rewrite newtons_length; exact Hm).
  assert (EA : forall i q, (i < m)%nat -> eq_at es i q = q i - rsum m (fun j => B i j * eq_at fs j q)).
  { intros i q Hi. unfold eq_at, es. rewrite newtons_nth by lia. cbn. rewrite rev_lin, Hm. reflexivity. }
  assert (SOL : forall x q, (forall i, (i < m)%nat -> eq_at fs i (with_xs m x q) = 0) -> is_solution es m x q).
  { intros x q H i Hi. rewrite EA by exact Hi. rewrite (rsum_ext m _ (fun _ => 0)) by (intros j Hj; rewrite H by exact Hj; ring).
    rewrite rsum_zero. unfold with_xs. rewrite (proj2 (Nat.ltb_lt i m) Hi). ring. }
  destruct (s_system_at n m nm es p X xi (fun _ _ => 0) DN Hl) as (HF & HG & HW & _); try assumption.
  - apply newtons_Forall. intros i Hi. cbn. split; [lia|apply lin_below, HV].
  - apply newtons_Forall. intros i Hi. cbn. repeat split. apply lin_dom, DF.
  - apply SOL, E0.
  - intros i j Hi Hj. generalize (SN i j Hi Hj). apply filter_imp. intros s. apply filter_imp. intros t. cbv zeta. apply SOL.
  - intros i j Hi Hj. unfold partial.
    assert (A : is_derive (fun t => minus (set_at P j t i) (rsum m (fun k => B i k * eq_at fs k (set_at P j t)))) (P j)
      (minus (if Nat.eqb i j then 1 else 0) (rsum m (fun k => B i k * D k j)))).
    { apply (is_derive_minus (K:=R_AbsRing) (V:=R_NormedModule)).
      - unfold set_at. destruct (Nat.eqb i j); [exact (is_derive_id (K:=R_AbsRing) (P j))|exact (is_derive_const (K:=R_AbsRing) (V:=R_NormedModule) (P i) (P j))].
      - apply (derive_rsum m (fun k t => B i k * eq_at fs k (set_at P j t))). intros k Hk. apply (is_derive_scal _ _ (B i k) _ (PD k j Hk Hj)). }
    rewrite INV in A by assumption. rewrite minus_eq_zero in A.
    eapply is_derive_ext; [|exact A]. intros t. cbn beta. rewrite EA by exact Hi. reflexivity.
  - intros k i Hi. split; [apply HF, Hi|]. split.
    + intros s a Hs Pa. pose proof (HG s a Hs Pa k i Hi) as G1. rewrite (rsum_ext' m _ (fun _ => 0)), rsum_zero in G1 by (intros; ring). lra.
    + intros w Hw. rewrite (HW w Hw k i Hi). rewrite (rsum_ext' m _ (fun _ => 0)), rsum_zero by (intros; ring). reflexivity.
Qed.

Lemma s_system_near n m nm es p xi (Q : nat -> nat -> R) r : distinct n nm -> List.length es = m ->
  List.Forall (vars_below (m + n)) es -> List.Forall no_abs es -> List.Forall (fun e => smooth 2 e (with_xs m (xi p) p)) es ->
  is_solution es m (xi p) p -> system_near n (is_solution es m) p xi ->
  (forall i j, (i < m)%nat -> (j < m)%nat -> partial (eq_at es i) j (with_xs m (xi p) p) (Q i j)) ->
  r < 1 -> (forall i, (i < m)%nat -> rsum m (fun j => Rabs (Q i j)) <= r) ->
  exists d, 0 < d /\ forall X, (forall i, (i < m)%nat -> keys_ok (X 0%nat i) /\ Rabs (s_get_f (X 0%nat i) - xi p i) < d) -> s_solver es m nm p X ->
    (forall i, (i < m)%nat -> is_lim_seq (fun k => s_get_f (X k i)) (xi p i)) /\
    (forall s a, (s < n)%nat -> (forall i, (i < m)%nat -> partial (fun q => xi q i) s p (a i)) ->
       forall i, (i < m)%nat -> is_lim_seq (fun k => gd (X k i) (nm s)) (a i)) /\
    (forall w, (forall s, (s < n)%nat -> w <> nm s) -> forall i, (i < m)%nat -> is_lim_seq (fun k => gd (X k i) w) 0).
Proof.
  intros DN Hm HV NA SM EX SN PQ Hr HQ. set (P := with_xs m (xi p) p) in *.
  assert (D : List.Forall (fun e => dom e P) es) by (revert SM; apply Forall_impl; intros e; apply smooth_dom).
  assert (EQ : forall i j, (i < m)%nat -> (j < m)%nat -> jg (jat (nth i es (EConst 0)) P) j = Q i j).
  { intros i j Hi Hj. apply (jat_partial (m + n)); [apply (Forall_nth_in _ es _ i HV); lia|apply (Forall_nth_in _ es (EConst 0) i D); lia|lia|apply PQ; assumption]. }
  assert (HQ' : forall i, (i < m)%nat -> rsum m (fun j => Rabs (jg (jat (nth i es (EConst 0)) P) j)) <= r).
  { intros i Hi. rewrite (rsum_ext m _ (fun j => Rabs (Q i j))) by (intros j Hj; f_equal; apply EQ; assumption). apply HQ, Hi. }
  destruct (all_close m (fun i M => forall x, (forall j, (j < m)%nat -> Rabs (x j - xi p j) <= M) ->
    dom (nth i es (EConst 0)) (with_xs m x p) /\ Rabs (eq_at es i (with_xs m x p) - xi p i) <= (1 + r) / 2 * M)) as (d & Hd & HA).
  { intros i Hi. assert (R0 : 0 <= r) by (eapply Rle_trans; [|apply (HQ i Hi)]; apply rsum_pos; intros; apply Rabs_pos).
    destruct (value_contract m n (nth i es (EConst 0)) (xi p) p r) as (d & Hd & HA);
      [apply (Forall_nth_in _ es _ i HV); lia|apply (Forall_nth_in _ es (EConst 0) i SM); lia|lra|apply HQ', Hi|].
    exists d. split; [exact Hd|]. intros M HM x Hx. destruct (HA x M HM Hx) as (H1 & H2). split; [exact H1|].
    rewrite (EX i Hi) at 1. exact H2. }
  exists d. split; [exact Hd|]. intros X HX HS.
  assert (K0 : forall i, (i < m)%nat -> keys_ok (X 0%nat i)) by (intros; apply HX; assumption).
  set (J := fun i => mkjet (s_f (X 0%nat i)) (fun s => gd (X 0%nat i) (nm s)) (fun _ _ => 0)).
  pose proof (sweeps_f n m nm es p X DN Hm HV K0 HS) as SF. pose proof (sweeps_d n m nm es p X DN Hm HV K0 HS) as SD. fold J in SF, SD.
  set (M0 := vmax m (fun i => Rabs (s_get_f (X 0%nat i) - xi p i))).
  assert (LV : forall i, (i < m)%nat -> is_lim_seq (fun k => jf (siter es m p J k i)) (xi p i)).
  { intros i0 Hi0. assert (R0 : 0 <= r) by (eapply Rle_trans; [|apply (HQ i0 Hi0)]; apply rsum_pos; intros; apply Rabs_pos).
    assert (HM0 : 0 <= M0 < d).
    { split; [apply vmax_pos|]. unfold M0. assert (HX' : forall i, (i < m)%nat -> Rabs (s_get_f (X 0%nat i) - xi p i) < d) by (intros; apply HX; assumption).
      clear - Hd HX'. induction m as [|m' IH]; cbn [vmax]; [exact Hd|]. apply Rmax_lub_lt; [apply IH; intros; apply HX'; lia|apply HX'; lia]. }
    set (r' := (1 + r) / 2). assert (Hr' : 0 <= r' < 1) by (unfold r'; lra).
    assert (B : forall k i, (i < m)%nat -> Rabs (jf (siter es m p J k i) - xi p i) <= r' ^ k * M0).
    { induction k as [|k IH]; intros i Hi.
      - cbn [siter pow J jf]. rewrite Rmult_1_l. apply (vmax_ge m (fun i => Rabs (s_get_f (X 0%nat i) - xi p i))), Hi.
      - assert (PK : 0 <= r' ^ k <= 1) by (split; [apply pow_le; lra|rewrite <- (pow1 k); apply pow_incr; lra]).
        destruct (HA i (r' ^ k * M0) Hi) with (x := fun i => jf (siter es m p J k i)) as (DV & C); [nra|exact IH|].
        cbn [siter]. destruct (sys_step m n (nth i es (EConst 0)) p (siter es m p J k) (Forall_nth_in _ es _ i HV ltac:(lia))) as (E0 & _). cbv zeta in E0. rewrite E0.
        unfold jat. rewrite (proj1 (point_derivs (m + n) _ _ (Forall_nth_in _ es _ i HV ltac:(lia)) DV)).
        eapply Rle_trans; [exact C|]. fold r'. cbn [pow]. lra. }
    apply lim_to. apply is_lim_seq_abs_0. apply (is_lim_seq_le_le (fun _ => 0) _ (fun k => r' ^ k * M0)).
    - intros k. split; [apply Rabs_pos|apply B, Hi0].
    - apply is_lim_seq_const.
    - replace (Finite 0) with (Finite (0 * M0)) by (f_equal; ring).
      apply is_lim_seq_mult'; [apply is_lim_seq_geom; rewrite Rabs_pos_eq; lra|apply is_lim_seq_const]. }
  assert (CC : forall i, (i < m)%nat -> _) by (intros i Hi; exact (jat_cont' (m + n) (nth i es (EConst 0)) P (Forall_nth_in _ es _ i HV ltac:(lia))
    (Forall_nth_in _ es (EConst 0) i NA ltac:(lia)) (Forall_nth_in _ es (EConst 0) i SM ltac:(lia)))).
  assert (LG : forall i s, (i < m)%nat -> (s < m + n)%nat ->
    is_lim_seq (fun k => jg (jat (nth i es (EConst 0)) (with_xs m (fun i => jf (siter es m p J k i)) p)) s) (jg (jat (nth i es (EConst 0)) P) s)).
  { intros i s Hi Hs. exact (cont_seqs (fun q => jg (jat (nth i es (EConst 0)) q) s) m n (xi p) p (fun k i => jf (siter es m p J k i)) (proj1 (CC i Hi) s) LV). }
  refine (conj _ (conj _ _)).
  - intros i Hi. eapply is_lim_seq_ext; [|apply (LV i Hi)]. intros k. symmetry. apply SF, Hi.
  - destruct (sys_converge m n es p J xi r Hm HV D SN Hr HQ' LG) as (CG & _).
    intros s a Hs Pa i Hi. eapply is_lim_seq_ext; [|apply (CG s a Hs Pa i Hi)]. intros k. symmetry. apply SD; assumption.
  - intros w Hw i Hi.
    apply (vec_contract m (fun k i => gd (X k i) w) (fun k i j => jg (jat (nth i es (EConst 0)) (with_xs m (fun i => jf (siter es m p J k i)) p)) j)
      (fun _ _ => 0) (fun i j => jg (jat (nth i es (EConst 0)) P) j) r Hr HQ'); [intros; apply LG; lia|intros; apply is_lim_seq_const| |exact Hi].
    intros k j Hj. rewrite Rplus_0_r. rewrite (sweeps_other n m nm es p X DN Hm HV K0 HS w k j Hw Hj).
    apply rsum_ext. intros t Ht. do 3 f_equal. apply functional_extensionality. intros s. unfold with_xs.
    destruct (Nat.ltb_spec s m) as [H|H]; [apply SF, H|reflexivity].
Qed.

Lemma vieta_sparse : let nm := (fun i : nat => match i with 0%nat => "p" | _ => "q" end)%string in
  let X0 := fun i : nat => match i with 0%nat => s_variable Rops "x" 2 | _ => s_constant 1 end in
  let X := s_sweep (newtons vieta_inv vieta) 2 nm vieta_point X0 in
  s_f (X 1%nat 0%nat) = 2 /\ s_f (X 1%nat 1%nat) = 1 /\
  gd (X 1%nat 0%nat) "p" = 2 /\ gd (X 1%nat 0%nat) "q" = - 1 /\ gd (X 0%nat 0%nat) "x" = 1 /\ gd (X 1%nat 0%nat) "x" = 0 /\
  gd (X 1%nat 1%nat) "p" = - 1 /\ gd (X 1%nat 1%nat) "q" = 1 /\ gd (X 1%nat 1%nat) "x" = 0.
Proof.
  cbv zeta. repeat split; lazy -[Rplus Rmult Rminus Ropp Rinv Rdiv IZR]; field.
Qed.
