(** Facts: enclosures and error bounds for sparse numbers. *)
From Coq Require Import ZArith List Bool String Permutation Reals Lra Lia.
From Flocq Require Import Core BinarySingleNaN.
From Verif Require Import Outcome Scalar Float64 Model ModelObj Spec RealOps ExprSpec ProgSpec Ops64 NumSpec ParamSpec ErrSpec FmaSpec RelSpec ModelS ModelObjS SpecS ParSSpec
  B64 Facts64 FactsS FactsSReal FactsParS FactsNum FactsErr FactsFma FactsRel.
Import ListNotations.
Open Scope R_scope.

(** The variables [nm i] with the values [v i]. *)
Notation vars O nm v := (fun i => s_variable O (nm i) (v i)).

Lemma vars_ok {S} (O : Ops S) (nm : nat -> string) (v : nat -> S) i : keys_ok (s_variable O (nm i) (v i)).
Proof. unfold keys_ok. cbn. repeat constructor. intros []. Qed.
(** Two scalar types run side by side, each with its own iteration orders. *)
Lemma side_by_side {B S T} (P : S -> T -> Prop) (O : Ops S) (O' : Ops T) (phi : B -> S) (psi : B -> T) (nm : nat -> string) (v : nat -> B) (e : expr B) x y :
  arith_rel P O O' -> (forall b, P (phi b) (psi b)) -> no_abs e ->
  s_runs O (vars O nm (fun i => phi (v i))) (emap phi e) x -> s_runs O' (vars O' nm (fun i => psi (v i))) (emap psi e) y ->
  P (s_get_f x) (s_get_f y) /\ forall k, P (s_get_d O x k) (s_get_d O' y k).
Proof.
  intros AR L NA R R'.
  destruct (runs_par P O O' AR _ (vars O' nm (fun i => psi (v i))) (fun i => var_par P O O' AR (nm i) _ _ (L (v i))) _ _ R (emap psi e)
    (or_intror (emap_abs phi e NA)) (emap_rel P phi psi e L)) as (y0 & R0 & H0).
  destruct (order_free O' _ _ _ _ _ (vars_ok O' nm _) (fun i => reorders_refl _) R0 R') as (Ef & _ & Ed).
  split; [rewrite <- Ef; apply H0|]. intros k. rewrite <- Ed. apply get_d_par; assumption.
Qed.
Lemma real_side {B} (phi : B -> R) (n : nat) (nm : nat -> string) (v : nat -> B) (e : expr B) :
  distinct n nm -> vars_below n e -> let p := fun i => phi (v i) in dom (emap phi e) p ->
  exists x, s_runs Rops (vars Rops nm p) (emap phi e) x /\ s_get_f x = rev (emap phi e) p /\
    forall i, (i < n)%nat -> partial (rev (emap phi e)) i p (s_get_d Rops x (nm i)).
Proof.
  intros D V p Dm. exists (s_run Rops (vars Rops nm p) (emap phi e)). split; [apply run_runs|].
  destruct (sparse_exact n nm (emap phi e) p D (emap_below _ _ _ V) Dm) as (A & B' & _). auto.
Qed.
(** A certificate: [T] holds what is known about the exact value and about the computed one. *)
Lemma certified_sparse {B S T} (within : R -> T -> Prop) (carries : S -> T -> Prop) (O : Ops S) (O' : Ops T) (phi : B -> S) (lift : B -> T) (val : B -> R)
  (n : nat) (nm : nat -> string) (v : nat -> B) (e : expr B) x y :
  distinct n nm -> vars_below n e -> no_abs e -> arith_rel within Rops O' -> arith_rel carries O O' ->
  (forall b, carries (phi b) (lift b)) -> (forall b, within (val b) (lift b)) ->
  s_runs O (vars O nm (fun i => phi (v i))) (emap phi e) x -> s_runs O' (vars O' nm (fun i => lift (v i))) (emap lift e) y ->
  carries (s_get_f x) (s_get_f y) /\ (forall k, carries (s_get_d O x k) (s_get_d O' y k)) /\
  let F := rev (emap val e) in let p := fun i => val (v i) in
  (dom (emap val e) p -> within (F p) (s_get_f y) /\
     forall i, (i < n)%nat -> exists G, partial F i p G /\ within G (s_get_d O' y (nm i))).
Proof.
  intros D V NA AW AC LC LW R R'. destruct (side_by_side carries O O' phi lift nm v e x y AC LC NA R R') as (C1 & C2).
  split; [exact C1|]. split; [exact C2|]. intros F p Dm.
  destruct (real_side val n nm v e D V Dm) as (z & Rz & Ez & Pz).
  destruct (side_by_side within Rops O' val lift nm v e z y AW LW NA Rz R') as (W1 & W2).
  fold p F in Ez, Pz. rewrite Ez in W1. split; [exact W1|]. intros i Hi. exists (s_get_d Rops z (nm i)). auto.
Qed.

Lemma sparse_enclosure {T} (O' : Ops T) (mem : R -> T -> Prop) (n : nat) (nm : nat -> string) (e : expr R) (e' : expr T) (box : nat -> T) y :
  distinct n nm -> vars_below n e -> no_abs e -> arith_rel mem Rops O' -> expr_rel mem e e' ->
  s_runs O' (vars O' nm box) e' y ->
  forall p, (forall i, mem (p i) (box i)) -> dom e p ->
    mem (rev e p) (s_get_f y) /\ forall i, (i < n)%nat -> exists G, partial (rev e) i p G /\ mem G (s_get_d O' y (nm i)).
Proof.
  intros D V NA AR He R p Hp Dm.
  destruct (runs_par mem Rops O' AR (vars Rops nm p) (vars O' nm box) (fun i => var_par mem Rops O' AR (nm i) _ _ (Hp i)) _ _
    (run_runs Rops (vars Rops nm p) e) e' (or_intror NA) He) as (y0 & R0 & H0).
  destruct (order_free O' _ _ _ _ _ (vars_ok O' nm _) (fun i => reorders_refl _) R0 R) as (Ef & _ & Ed).
  destruct (sparse_exact n nm e p D V Dm) as (A & B & _). split; [rewrite <- A, <- Ef; apply H0|].
  intros i Hi. exists (s_get_d Rops (s_run Rops (vars Rops nm p) e) (nm i)). split; [apply B, Hi|]. rewrite <- Ed. apply get_d_par; assumption.
Qed.
Lemma sparse_running_error (M : libm) (n : nat) (nm : nat -> string) (v : nat -> b64) (e : expr b64) x y :
  distinct n nm -> vars_below n e -> no_abs e -> let F := rev (emap val64 e) in let p := fun i => val64 (v i) in dom (emap val64 e) p ->
  s_runs (b64ops M) (vars (b64ops M) nm v) e x -> s_runs (Eops M) (vars (Eops M) nm (fun i => exactly (v i))) (emap exactly e) y ->
  bounded (F p) (s_get_f x) (s_get_f y) /\
  forall i, (i < n)%nat -> exists G, partial F i p G /\ bounded G (s_get_d (b64ops M) x (nm i)) (s_get_d (Eops M) y (nm i)).
Proof.
  intros D V NA F p Dm R R'. rewrite <- (emap_id e) in R.
  destruct (certified_sparse within carries (b64ops M) (Eops M) (fun b => b) exactly val64 n nm v e x y D V NA (Eops_within M) (Eops_carries M)
    exactly_carries exactly_within R R') as (C1 & C2 & W). destruct (W Dm) as (W1 & W2).
  split; [apply both_bounded; assumption|]. intros i Hi. destruct (W2 i Hi) as (G & PG & WG). exists G. split; [exact PG|]. apply both_bounded; auto.
Qed.
Lemma sparse_relative (M : libm) (m n : nat) (nm : nat -> string) (v : nat -> b64) (e : expr b64) x y :
  distinct n nm -> vars_below n e -> no_abs e -> libm_good M m -> let F := rev (emap val64 e) in let p := fun i => val64 (v i) in dom (emap val64 e) p ->
  s_runs (b64ops M) (vars (b64ops M) nm v) e x -> s_runs (Nops m) (vars (Nops m) nm (fun i => exactly64 (v i))) (emap exactly64 e) y ->
  confirmed (F p) (s_get_f x) (s_get_f y) /\
  forall i, (i < n)%nat -> exists G, partial F i p G /\ confirmed G (s_get_d (b64ops M) x (nm i)) (s_get_d (Nops m) y (nm i)).
Proof.
  intros D V NA LG F p Dm R R'. rewrite <- (emap_id e) in R.
  destruct (certified_sparse is_value counts (b64ops M) (Nops m) (fun b => b) exactly64 val64 n nm v e x y D V NA (value_all m) (counts_all M m LG)
    exactly64_counts exactly64_value R R') as (C1 & C2 & W). destruct (W Dm) as (W1 & W2).
  split; [apply confirm; assumption|]. intros i Hi. destruct (W2 i Hi) as (G & PG & WG). exists G. split; [exact PG|]. apply confirm; auto.
Qed.
Lemma sparse_contracted (M : libm) (k : R) (n : nat) (nm : nat -> string) (v : nat -> b64) (e : expr b64) x y :
  distinct n nm -> vars_below n e -> no_abs e -> accurate M k -> let F := rev (emap val64 e) in let p := fun i => val64 (v i) in dom (emap val64 e) p ->
  s_runs Tops (vars Tops nm (fun i => TLit (v i))) (emap TLit e) x -> s_runs (Bops k) (vars (Bops k) nm (fun i => point (v i))) (emap point e) y ->
  sure M (F p) (s_get_f x) (s_get_f y) /\
  forall i, (i < n)%nat -> exists G, partial F i p G /\ sure M G (s_get_d Tops x (nm i)) (s_get_d (Bops k) y (nm i)).
Proof.
  intros D V NA A F p Dm R R'.
  destruct (certified_sparse centred (trusts M) Tops (Bops k) TLit point val64 n nm v e x y D V NA (centred_all k) (trusts_all M k A)
    (point_trusts M) point_centred R R') as (C1 & C2 & W). destruct (W Dm) as (W1 & W2).
  split; [apply trusts_sure; assumption|]. intros i Hi. destruct (W2 i Hi) as (G & PG & WG). exists G. split; [exact PG|]. apply trusts_sure; auto.
Qed.
Lemma sparse_unfused (M : libm) (nm : nat -> string) (v : nat -> b64) (e : expr b64) x y : no_abs e ->
  s_runs (b64ops M) (vars (b64ops M) nm v) e x -> s_runs Tops (vars Tops nm (fun i => TLit (v i))) (emap TLit e) y ->
  evals M (s_get_f y) (s_get_f x) /\ forall k, evals M (s_get_d Tops y k) (s_get_d (b64ops M) x k).
Proof.
  intros NA R R'. rewrite <- (emap_id e) in R.
  exact (side_by_side (fun v T => evals M T v) (b64ops M) Tops (fun b => b) TLit nm v e x y (unfused_all M) (ev_lit M) NA R R').
Qed.
(** Integers of at most 53 bits, with every choice of contractions. *)
Lemma sparse_integers (M : libm) (n : nat) (nm : nat -> string) (v : nat -> Z) (e : expr Z) x y :
  let lit := fun z => TLit (b64_of_Z z) in
  distinct n nm -> vars_below n e -> arith false e -> let F := rev (emap IZR e) in let p := fun i => IZR (v i) in
  s_runs Tops (vars Tops nm (fun i => lit (v i))) (emap lit e) x -> s_runs int53 (vars int53 nm (fun i => small (v i))) (emap small e) y ->
  (forall w, s_get_f y <> None -> evals M (s_get_f x) w -> finite64 w /\ val64 w = F p) /\
  forall i w, (i < n)%nat -> s_get_d int53 y (nm i) <> None -> evals M (s_get_d Tops x (nm i)) w -> finite64 w /\ partial F i p (val64 w).
Proof.
  intros lit D V A F p R R'.
  destruct (certified_sparse same_Z (whole M) Tops int53 lit small IZR n nm v e x y D V (arith_no_abs _ _ A) same_Z_all (whole_all M)
    (whole_lit M) small_same R R') as (C1 & C2 & W). destruct (W (int_dom _ _ A)) as (W1 & W2). split.
  - intros w N Ew. destruct (s_get_f y) as [z|]; [|contradiction]. cbn in C1, W1. destruct C1 as (_ & C1 & _). destruct (C1 w Ew) as (Fw & Vw).
    split; [exact Fw|]. rewrite Vw. symmetry. exact W1.
  - intros i w Hi N Ew. destruct (W2 i Hi) as (G & PG & WG). specialize (C2 (nm i)). destruct (s_get_d int53 y (nm i)) as [z|]; [|contradiction].
    cbn in C2, WG. destruct C2 as (_ & C2 & _). destruct (C2 w Ew) as (Fw & Vw). split; [exact Fw|]. rewrite Vw, <- WG. exact PG.
Qed.

(** u * v at (3, 5): the derivative by u has the bound 0. *)
Definition uv_names (i : nat) : string := match i with 0%nat => "u" | _ => "v" end%string.
Lemma uv_distinct : distinct 2 uv_names.
Proof. intros [|[|i]] [|[|j]] Hi Hj E; try lia; discriminate. Qed.
Definition at35 (i : nat) : b64 := match i with 0%nat => b64_of_Z 3 | _ => b64_of_Z 5 end.
Lemma tracked_product M : exists w,
  s_get_d (Eops M) (s_run (Eops M) (vars (Eops M) uv_names (fun i => exactly (at35 i))) (emap exactly (EB Bmul (EVar 0) (EVar 1)))) "u" = Some (w, 0).
Proof.
  destruct (of_Z_exact 5 ltac:(lia)) as (F5 & V5). destruct (of_Z_exact 1 ltac:(lia)) as (F1 & V1).
  cbn [emap s_run s_apply_b]. unfold ModelS.s_mul, s_variable, s_ctor, uv_names, s_get_d, s_binary, t_map, t_merge.
  cbn [s_d s_f map fold_left t_update t_find String.eqb Ascii.eqb Bool.eqb]. unfold at35.
  cbn [o_Z o_mul Eops]. rewrite !exactly_Z by lia.
  assert (E1 : rounded true (b64_of_Z 1) 1 0 = Some (b64_of_Z 1, 0)).
  { unfold rounded. rewrite F1. cbn [andb]. rewrite V1. unfold Rminus. rewrite Rplus_opp_r, Rabs_R0, Rplus_0_r. reflexivity. }
  rewrite E1. unfold tr2 at 1. rewrite V1, V5. set (q := b64_mul (b64_of_Z 1) (b64_of_Z 5)).
  assert (Fq : is_finite q = true) by (vm_compute; reflexivity).
  unfold rounded, anywhere2. rewrite Fq. cbn [andb]. exists q. f_equal. f_equal.
  destruct (near_int 5 ltac:(lia)) as (N & _). unfold q. rewrite finite_mul_val by exact Fq. rewrite V1, V5.
  replace (1 * 5) with (IZR 5) by lra. rewrite N. replace (IZR 5 - IZR 5) with 0 by ring. rewrite Rabs_R0. ring.
Qed.
