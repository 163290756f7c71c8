(** Proofs about identities of sparse numbers (C112): one dense number of size 1 for each name. *)
From Coq Require Import ZArith List Bool String Reals Lra Lia.
From Coquelicot Require Import Coquelicot.
From Verif Require Import Outcome Scalar Model Spec RealOps ExprSpec ModelS SpecS FactsS FactsSReal Chain Samples Facts64 FactsReal UDeriv IdSSpec.
Import ListNotations.
Open Scope R_scope.

Definition col (k : string) (y : ss R) : dd R := mk 1 (full [s_get_f y; s_get_d Rops y k]).
Lemma col_wf k y : wf dyn1 1 (col k y).
Proof. apply wf_list; [reflexivity|reflexivity|vm_compute; discriminate]. Qed.
Lemma col_f k y : get_f (col k y) = Ok (s_get_f y).
Proof. reflexivity. Qed.
Lemma col_g k y : get_g dyn1 (col k y) 0 = Ok (s_get_d Rops y k).
Proof. reflexivity. Qed.
Lemma col_mirrors k y : keys_ok y -> mirrors Rops dyn1 1 (fun _ => k) (col k y) y.
Proof.
  intros K. split; [exact K|]. exists (fun _ _ => 0). split; [apply col_wf|]. split; [apply col_f|]. split; [|discriminate].
  intros [|i] Hi; [apply col_g|lia].
Qed.
Lemma cols_mirror k ys : List.Forall keys_ok ys -> Forall2 (mirrors Rops dyn1 1 (fun _ => k)) (map (col k) ys) ys.
Proof. intros H. induction H; constructor; [apply col_mirrors|]; assumption. Qed.
Lemma dyn1_ok : cfg_ok dyn1 /\ size_ok dyn1 1.
Proof. split; [vm_compute; intuition discriminate || auto|split; [discriminate|vm_compute; discriminate]]. Qed.

Section Ops.
  Variable ys : list (ss R).
  Hypothesis K : List.Forall keys_ok ys.
  Lemma operands_keys i : keys_ok (operands ys i).
  Proof.
    unfold operands. destruct (Nat.lt_ge_cases i (List.length ys)) as [H|H]; [|rewrite nth_overflow by exact H; constructor].
    rewrite List.Forall_forall in K. apply K, nth_In, H.
  Qed.
  Lemma column k e x : vars_below (List.length ys) e -> s_runs Rops (operands ys) e x ->
    exists r, run Rops dyn1 1 (map (col k) ys) e = Ok r /\ get_f r = Ok (s_get_f x) /\ get_g dyn1 r 0 = Ok (s_get_d Rops x k).
  Proof.
    intros V X. destruct dyn1_ok as (C & SO).
    destruct (run_mirrors 1 (fun _ => k) dyn1 C e (map (col k) ys) ys SO) as (r & E & KR & h & SH); [rewrite map_length; exact V|apply cols_mirror, K|].
    exists r. split; [exact E|]. destruct SH as (_ & F & G & _).
    assert (Q : reorders (s_run Rops (operands ys) e) x).
    { eapply (runs_unique Rops _ _ e _); [exact operands_keys|intros i; apply reorders_refl|apply run_runs|exact X]. }
    fold (operands ys) in F, G, KR. pose proof Q as (QF & QD). split.
    - rewrite F. unfold s_get_f. rewrite QF. reflexivity.
    - pose proof (G 0%nat ltac:(lia)) as G0. change (Z.of_nat 0) with 0%Z in G0. rewrite G0. f_equal. unfold s_get_d. rewrite (proj2 (proj1 (perm_find _ _ KR) QD) k). reflexivity.
  Qed.
  Lemma transfer e1 e2 : vars_below (List.length ys) e1 -> vars_below (List.length ys) e2 ->
    (forall k, same dyn1 1%nat (map (col k) ys) e1 e2) -> same_s ys e1 e2.
  Proof.
    intros V1 V2 H x y RX RY.
    assert (Q : forall k, s_get_f x = s_get_f y /\ s_get_d Rops x k = s_get_d Rops y k).
    { intros k. destruct (column k e1 x V1 RX) as (r1 & E1 & F1 & G1). destruct (column k e2 y V2 RY) as (r2 & E2 & F2 & G2).
      destruct (H k) as (r & r' & E & E' & SZ & DT). rewrite E1 in E. rewrite E2 in E'. injection E as <-. injection E' as <-.
      assert (A : get_f r1 = get_f r2) by (unfold get_f; rewrite DT; reflexivity).
      assert (B : get_g dyn1 r1 0 = get_g dyn1 r2 0) by (unfold get_g; rewrite DT, SZ; reflexivity).
      rewrite F1, F2 in A. rewrite G1, G2 in B. injection A as A. injection B as B. split; assumption. }
    split; [apply (Q EmptyString)|intros k; apply (Q k)].
  Qed.
End Ops.

Lemma chain_s e ys p : List.Forall keys_ok ys -> vars_below (List.length ys) e -> (forall i, (i < List.length ys)%nat -> p i = s_get_f (operands ys i)) -> dom e p ->
  exists a : nat -> R, (forall i, (i < List.length ys)%nat -> partial (rev e) i p (a i)) /\
    forall x, s_runs Rops (operands ys) e x -> s_get_f x = rev e p /\
      forall k, s_get_d Rops x k = rsum (List.length ys) (fun i => a i * s_get_d Rops (operands ys i) k).
Proof.
  intros K V P D. destruct dyn1_ok as (C & SO).
  assert (CH : forall k, exists a : nat -> R, (forall i, (i < List.length ys)%nat -> partial (rev e) i p (a i)) /\
    forall x, s_runs Rops (operands ys) e x -> s_get_f x = rev e p /\
      s_get_d Rops x k = rsum (List.length ys) (fun i => a i * s_get_d Rops (operands ys i) k)).
  { intros k. destruct (chain_rule dyn1 1 e (map (col k) ys) p (fun i _ => s_get_d Rops (operands ys i) k) (fun _ _ _ => 0) C SO) as (a & b & r & A & _ & E & SH).
    - rewrite map_length. exact V.
    - exact D.
    - intros i x Hx. assert (L : (i < List.length ys)%nat) by (rewrite <- (map_length (col k)); apply nth_error_Some; congruence).
      rewrite nth_error_map in Hx. destruct (nth_error ys i) as [y|] eqn:Ey; [|discriminate]. injection Hx as <-.
      assert (OY : operands ys i = y) by (unfold operands; apply nth_error_nth, Ey). rewrite P, OY by exact L.
      split; [apply col_wf|]. split; [apply col_f|]. split; [|discriminate]. intros [|j] Hj; [apply col_g|lia].
    - rewrite map_length in *. exists a. split; [exact A|]. intros x X. destruct (column ys K k e x V X) as (r' & E' & F & G).
      rewrite E in E'. injection E' as <-. destruct SH as (_ & F' & G' & _). pose proof (G' 0%nat ltac:(lia)) as G0. change (Z.of_nat 0) with 0%Z in G0.
      rewrite F in F'. rewrite G in G0. injection F' as F'. injection G0 as G0. split; assumption. }
  destruct (CH EmptyString) as (a & A & _). exists a. split; [exact A|]. intros x X. split.
  - destruct (CH EmptyString) as (? & _ & H). apply H, X.
  - intros k. destruct (CH k) as (a' & A' & H). rewrite (proj2 (H x X)).
    assert (EQ : forall i, (i < List.length ys)%nat -> a' i = a i).
    { intros i Hi. pose proof (is_derive_unique _ _ _ (A i Hi)) as U. pose proof (is_derive_unique _ _ _ (A' i Hi)) as U'. congruence. }
    clear - EQ. induction (List.length ys) as [|m IH]; [reflexivity|]. cbn [rsum]. rewrite IH by (intros i Hi; apply EQ; lia). rewrite EQ by lia. reflexivity.
Qed.
Lemma same_function_s ys e1 e2 p : List.Forall keys_ok ys -> (forall i, (i < List.length ys)%nat -> p i = s_get_f (operands ys i)) ->
  vars_below (List.length ys) e1 -> vars_below (List.length ys) e2 -> dom e1 p -> dom e2 p ->
  near (List.length ys) p (fun q => rev e1 q = rev e2 q) -> same_s ys e1 e2.
Proof.
  intros K P V1 V2 D1 D2 N. destruct dyn1_ok as (C & SO). apply transfer; try assumption. intros k. apply (same_function dyn1 1 e1 e2 _ p); try assumption.
  - apply Forall_forall. intros x Hx. apply in_map_iff in Hx. destruct Hx as (y & <- & _). apply col_wf.
  - intros i x Hx. assert (L : (i < List.length ys)%nat) by (rewrite <- (map_length (col k)); apply nth_error_Some; congruence).
    rewrite nth_error_map in Hx. destruct (nth_error ys i) as [y|] eqn:Ey; [|discriminate]. injection Hx as <-.
    assert (OY : operands ys i = y) by (unfold operands; apply nth_error_nth, Ey). rewrite P, OY by exact L. apply col_f.
  - rewrite map_length. exact V1.
  - rewrite map_length. exact V2.
  - rewrite map_length. exact N.
Qed.

Ltac carry H := repeat match goal with |- _ /\ _ => split end; intros;
  (apply transfer; [repeat constructor; assumption|cbn; repeat split; lia|cbn; repeat split; lia|intros k; cbn [map]; apply (H k); assumption]).
Lemma division_s : forall x y : ss R, keys_ok x -> keys_ok y -> s_get_f y <> 0 ->
  same_s [x; y] (X / Y * Y) X /\ same_s [x; y] (X * Y / Y) X /\
  same_s [x; y] (X / Y) (X * EU Ureciprocal Y) /\ same_s [x; y] (EU (Usdiv 1) Y) (EU Ureciprocal Y) /\
  same_s [x; y] (EU Ureciprocal (EU Ureciprocal Y)) Y /\ same_s [x; y] (Y / Y) (EConst 1) /\
  same_s [x; y] (Y * EU Ureciprocal Y) (EConst 1).
Proof. intros x y Kx Ky B. pose proof (fun k => division_laws dyn1 1 (col k x) (col k y) _ (proj1 dyn1_ok) (col_wf k x) (col_wf k y) (col_f k y) B) as H. carry H. Qed.
Lemma everywhere_s : forall x : ss R, keys_ok x ->
  same_s [x] (EU Ulog (EU Uexp X)) X /\
  same_s [x] (EU Usin X * EU Usin X + EU Ucos X * EU Ucos X) (EConst 1) /\
  same_s [x] (EU Ucosh X * EU Ucosh X - EU Usinh X * EU Usinh X) (EConst 1) /\
  same_s [x] (EU Utanh X) (EU Usinh X / EU Ucosh X) /\
  same_s [x] (EU Usinh X) (EU (Udivs 2) (EU Uexp X - EU Uexp (- X))) /\
  same_s [x] (EU Ucosh X) (EU (Udivs 2) (EU Uexp X + EU Uexp (- X))) /\
  same_s [x] (EU Utan (EU Uatan X)) X /\
  same_s [x] (EU Usinh (EU Uasinh X)) X /\ same_s [x] (EU Uasinh (EU Usinh X)) X /\
  same_s [x] (EU (Upow 2) X) (X * X) /\ same_s [x] (EU (Upow 3) X) (X * X * X) /\
  same_s [x] (EU Uexp (- X)) (EU Ureciprocal (EU Uexp X)) /\
  same_s [x] (EU Usin (- X)) (- EU Usin X) /\ same_s [x] (EU Ucos (- X)) (EU Ucos X).
Proof. intros x Kx. pose proof (fun k => identities_everywhere dyn1 1 (col k x) (proj1 dyn1_ok) (col_wf k x)) as H. carry H. Qed.
Lemma positive_s : forall (x : ss R) (s : R), keys_ok x -> 0 < s_get_f x ->
  same_s [x] (EU Uexp (EU Ulog X)) X /\
  same_s [x] (EU Usqrt X * EU Usqrt X) X /\ same_s [x] (EU Usqrt (X * X)) X /\
  same_s [x] (EU Ulog2 X) (EU (Udivs (ln 2)) (EU Ulog X)) /\
  same_s [x] (EU Ulog10 X) (EU (Udivs (ln 10)) (EU Ulog X)) /\
  (0 < s -> s <> 1 -> same_s [x] (EU (Ulogb s) X) (EU (Udivs (ln s)) (EU Ulog X))) /\
  same_s [x] (EU (Upow s) X) (EU Uexp (EU (Umuls s) (EU Ulog X))) /\
  same_s [x] (EU (Upow (/ 2)) X) (EU Usqrt X) /\
  same_s [x] (EU (Upow (/ 3)) X) (EU Ucbrt X) /\
  same_s [x] (EU Uabs X) X.
Proof. intros x s Kx B. pose proof (fun k => identities_positive dyn1 1 (col k x) _ s (proj1 dyn1_ok) (col_wf k x) (col_f k x) B) as H. carry H. Qed.
Lemma nonzero_s : forall x : ss R, keys_ok x -> s_get_f x <> 0 ->
  same_s [x] (EU Ucbrt X * EU Ucbrt X * EU Ucbrt X) X /\
  same_s [x] (EU (Upow 3) (EU Ucbrt X)) X /\
  same_s [x] (EU Uabs X) (EU Usqrt (X * X)) /\
  same_s [x] (EU (Upow (-1)) X) (EU Ureciprocal X) /\
  same_s [x] (EU (Upow 1) X) X /\ same_s [x] (EU (Upow 0) X) (EConst 1).
Proof. intros x Kx B. pose proof (fun k => identities_nonzero dyn1 1 (col k x) _ (proj1 dyn1_ok) (col_wf k x) (col_f k x) B) as H. carry H. Qed.
Lemma unit_s : forall x : ss R, keys_ok x -> -1 < s_get_f x < 1 ->
  same_s [x] (EU Usin (EU Uasin X)) X /\ same_s [x] (EU Ucos (EU Uacos X)) X /\
  same_s [x] (EU Utanh (EU Uatanh X)) X /\
  same_s [x] (EU Uasin X + EU Uacos X) (EConst (PI / 2)) /\
  same_s [x] (EU Ucos (EU Uasin X)) (EU Usqrt (EU (Ussub 1) (X * X))).
Proof. intros x Kx B. pose proof (fun k => identities_unit dyn1 1 (col k x) _ (proj1 dyn1_ok) (col_wf k x) (col_f k x) B) as H. carry H. Qed.
Lemma acosh_s : forall x : ss R, keys_ok x -> 1 < s_get_f x ->
  same_s [x] (EU Ucosh (EU Uacosh X)) X.
Proof. intros x Kx B. pose proof (fun k => identities_acosh dyn1 1 (col k x) _ (proj1 dyn1_ok) (col_wf k x) (col_f k x) B) as H. carry H. Qed.
Lemma tan_s : forall x : ss R, keys_ok x -> cos (s_get_f x) <> 0 ->
  same_s [x] (EU Utan X) (EU Usin X / EU Ucos X).
Proof. intros x Kx B. pose proof (fun k => identities_tan dyn1 1 (col k x) _ (proj1 dyn1_ok) (col_wf k x) (col_f k x) B) as H. carry H. Qed.
Lemma two_s : forall x y : ss R, keys_ok x -> keys_ok y -> let a := s_get_f x in let b := s_get_f y in
  same_s [x; y] (EU Uexp (X + Y)) (EU Uexp X * EU Uexp Y) /\
  same_s [x; y] (EU Usin (X + Y)) (EU Usin X * EU Ucos Y + EU Ucos X * EU Usin Y) /\
  same_s [x; y] (EU Ucos (X + Y)) (EU Ucos X * EU Ucos Y - EU Usin X * EU Usin Y) /\
  (0 < a -> 0 < b -> same_s [x; y] (EU Ulog (X * Y)) (EU Ulog X + EU Ulog Y)) /\
  (0 < a -> 0 < b -> same_s [x; y] (EU Usqrt (X * Y)) (EU Usqrt X * EU Usqrt Y)) /\
  (~ (a = 0 /\ b = 0) -> same_s [x; y] (EB Bhypot X Y) (EU Usqrt (X * X + Y * Y))) /\
  (0 < b -> same_s [x; y] (EB Batan2 X Y) (EU Uatan (X / Y))).
Proof. intros x y Kx Ky a b. pose proof (fun k => identities_two dyn1 1 (col k x) (col k y) _ _ (proj1 dyn1_ok) (col_wf k x) (col_wf k y) (col_f k x) (col_f k y)) as H. carry H. Qed.
Lemma quotient_s : forall x y : ss R, keys_ok x -> keys_ok y -> let a := s_get_f x in let b := s_get_f y in b <> 0 ->
  same_s [x; y] (EB Batan2 X Y) (EU (Uadds (Ratan2 a b - atan (a / b))) (EU Uatan (X / Y))).
Proof. intros x y Kx Ky a b B. pose proof (fun k => atan2_quotient dyn1 1 (col k x) (col k y) _ _ (proj1 dyn1_ok) (col_wf k x) (col_wf k y) (col_f k x) (col_f k y) B) as H. carry H. Qed.
Lemma hypot3_same : forall x y z : ss R, keys_ok x -> keys_ok y -> keys_ok z -> let a := s_get_f x in let b := s_get_f y in let d := s_get_f z in
  (~ (a = 0 /\ b = 0 /\ d = 0) -> same_s [x; y; z] (EH X Y Z3) (EU Usqrt (X * X + Y * Y + Z3 * Z3))) /\
  (~ (a = 0 /\ b = 0) -> same_s [x; y; z] (EH X Y Z3) (EB Bhypot (EB Bhypot X Y) Z3)).
Proof. intros x y z Kx Ky Kz a b d. pose proof (fun k => hypot3_consistent dyn1 1 (col k x) (col k y) (col k z) _ _ _ (proj1 dyn1_ok) (col_wf k x) (col_wf k y) (col_wf k z) (col_f k x) (col_f k y) (col_f k z)) as H. carry H. Qed.
Lemma powers_s : forall (x : ss R) (k : nat), keys_ok x -> s_get_f x <> 0 \/ (2 <= k)%nat -> same_s [x] (EU (Upow (INR k)) X) (epow k).
Proof.
  intros x k K H. apply transfer; [repeat constructor; exact K|cbn; lia|induction k; cbn; [exact I|split; [lia|]]|].
  - clear. induction k; cbn; [exact I|split; [lia|assumption]].
  - intros j. apply (pow_is_product dyn1 1 (col j x) _ k (proj1 dyn1_ok) (col_wf j x) (col_f j x) H).
Qed.
Lemma names_depend : ~ (forall (ys : list (ss R)) (e1 e2 : expr R) (x y : ss R), List.Forall keys_ok ys -> same_s ys e1 e2 ->
  s_runs Rops (operands ys) e1 x -> s_runs Rops (operands ys) e2 y -> s_size x = s_size y).
Proof.
  intros H. set (x := mks 0 [("u"%string, 1)]). assert (K : keys_ok x) by (repeat constructor; intros []).
  pose proof (proj1 (proj2 (everywhere_s x K))) as SM.
  specialize (H [x] _ _ _ _ ltac:(repeat constructor; intros []) SM (run_runs Rops _ _) (run_runs Rops _ _)). discriminate H.
Qed.
Lemma id_case : let x := mks (/ 2) [("u", 3); ("v", 4)]%string in let y := mks 5 [("w", 6); ("u", 7)]%string in
  let e1 := EU (Upow 2) (X + Y)%E in let e2 := (X * X + EU (Usmul 2) (X * Y) + Y * Y)%E in
  List.Forall keys_ok [x; y] /\ dom e1 (fun i => s_get_f (operands [x; y] i)) /\ same_s [x; y] e1 e2 /\
  s_get_d Rops (s_run Rops (operands [x; y]) e1) "u" = 110 /\ s_runs Rops (operands [x; y]) e1 (s_run Rops (operands [x; y]) e1) /\
  0 < / 2 /\ -1 < / 2 < 1.
Proof.
  intros x y e1 e2.
  assert (K : List.Forall keys_ok [x; y]) by (repeat constructor; cbn; intuition discriminate).
  assert (D : forall p, dom e1 p).
  { intros p. cbn. repeat split. right. right. exists 2%nat. cbn. split; [lia|lra]. }
  split; [exact K|]. split; [apply D|]. split; [|split; [|split; [apply run_runs|lra]]].
  - apply (same_function_s [x; y] e1 e2 (fun i => s_get_f (operands [x; y] i))); try assumption; try (cbn; repeat split; lia); try apply D.
    exists 1. split; [lra|]. intros q _. cbn. replace 2 with (INR 2) by (cbn; lra). rewrite Rpow_std_nat. cbn. lra.
  - unfold s_get_d. cbn. replace (2 - 1) with (INR 1) by (cbn; lra). rewrite Rpow_std_nat. cbn. lra.
Qed.
