(** Two-parameter derivative predicate and its closure under the library's functions. *)
From Coq Require Import ZArith Reals Lra Lia Psatz.
From Coquelicot Require Import Coquelicot.
From Verif Require Import Outcome Scalar Model RealOps.
Open Scope R_scope.

(** [J2 phi a b c d]: value [a], first derivative [b] in the first parameter, [c] in the second,
    and mixed derivative [d] (first differentiate in the second parameter, then in the first). *)
Definition J2 (phi : R -> R -> R) (a b c d : R) : Prop :=
  phi 0 0 = a /\
  is_derive (fun s => phi s 0) 0 b /\
  exists D : R -> R,
    locally 0 (fun s => is_derive (fun t => phi s t) 0 (D s)) /\ D 0 = c /\ is_derive D 0 d.

Lemma J2_eq phi a b c d a' b' c' d' : J2 phi a b c d ->
  a = a' -> b = b' -> c = c' -> d = d' -> J2 phi a' b' c' d'.
Proof. intros H -> -> -> ->. exact H. Qed.

(** [P s t] for all [s] near 0 and, for each, all [t] near 0. *)
Definition near2 (P : R -> R -> Prop) : Prop := locally 0 (fun s => locally 0 (fun t => P s t)).

Lemma near2_and P Q : near2 P -> near2 Q -> near2 (fun s t => P s t /\ Q s t).
Proof.
  unfold near2. intros HP HQ. generalize (filter_and _ _ HP HQ). apply filter_imp. intros s [A B].
  apply filter_and; assumption.
Qed.
Lemma near2_imp (P Q : R -> R -> Prop) : (forall s t, P s t -> Q s t) -> near2 P -> near2 Q.
Proof. unfold near2. intros H. apply filter_imp. intros s. apply filter_imp. intros t. apply H. Qed.
Lemma near2_true (P : R -> R -> Prop) : (forall s t, P s t) -> near2 P.
Proof. unfold near2. intros H. apply filter_forall. intros s. apply filter_forall. intros t. apply H. Qed.
Lemma near2_00 (P : R -> R -> Prop) : near2 P -> P 0 0.
Proof.
  unfold near2. intros H. assert (H1 := locally_singleton _ _ H). cbn beta in H1. exact (locally_singleton _ _ H1).
Qed.

Lemma J2_ext phi psi a b c d : near2 (fun s t => phi s t = psi s t) -> J2 phi a b c d -> J2 psi a b c d.
Proof.
  intros HE (Ha & Hb & D & HD & Hc & Hd). split; [rewrite <- (near2_00 _ HE); exact Ha|]. split.
  - eapply is_derive_ext_loc; [|exact Hb]. unfold near2 in HE. revert HE. apply filter_imp. intros s H.
    exact (locally_singleton _ _ H).
  - unfold near2 in HE. exists D. split; [|split; assumption]. generalize (filter_and _ _ HE HD). apply filter_imp.
    intros s [H1 H2]. eapply is_derive_ext_loc; [exact H1|exact H2].
Qed.

Lemma derive_near (f : R -> R) (x l : R) (P : R -> Prop) :
  is_derive f x l -> locally (f x) P -> locally x (fun y => P (f y)).
Proof.
  intros H HP. assert (HC : filterlim f (locally x) (locally (f x))).
  { apply (ex_derive_continuous (K:=R_AbsRing) (V:=R_NormedModule) f x). exists l. exact H. }
  exact (HC P HP).
Qed.

(** Continuity: an open condition on the value persists nearby. *)
Lemma J2_near phi a b c d (P : R -> Prop) : J2 phi a b c d -> locally a P -> near2 (fun s t => P (phi s t)).
Proof.
  intros (Ha & Hb & D & HD & Hc & Hd) HP.
  assert (HP2 : locally a (fun x => locally x P)) by (apply locally_locally; exact HP).
  assert (C1 : locally 0 (fun s => locally (phi s 0) P)).
  { apply (derive_near (fun s => phi s 0) 0 b (fun x => locally x P) Hb). rewrite Ha. exact HP2. }
  unfold near2. generalize (filter_and _ _ C1 HD). apply filter_imp. intros s [H1 H2].
  exact (derive_near (fun t => phi s t) 0 (D s) P H2 H1).
Qed.

Lemma J2_const k : J2 (fun _ _ => k) k 0 0 0.
Proof.
  split; [reflexivity|]. split; [apply @is_derive_const|].
  exists (fun _ => 0). split; [|split; [reflexivity|apply @is_derive_const]].
  apply filter_forall. intros s. apply @is_derive_const.
Qed.

(** [p + s u + t v] *)
Lemma J2_lin p u v : J2 (fun s t => p + s * u + t * v) p u v 0.
Proof.
  split; [ring|]. split.
  - auto_derive; [exact I|ring].
  - exists (fun _ => v). split; [|split; [reflexivity|apply @is_derive_const]].
    apply filter_forall. intros s. auto_derive; [exact I|ring].
Qed.

Lemma J2_comp (psi psi1 : R -> R) psi2 phi a b c d :
  J2 phi a b c d ->
  locally a (fun x => is_derive psi x (psi1 x)) -> is_derive psi1 a psi2 ->
  J2 (fun s t => psi (phi s t)) (psi a) (psi1 a * b) (psi1 a * c) (psi1 a * d + psi2 * b * c).
Proof.
  intros (Ha & Hb & D & HD & Hc & Hd) H1 H2. split; [rewrite Ha; reflexivity|].
  split.
  - replace (psi1 a * b) with (b * psi1 a) by ring.
    apply (is_derive_comp psi (fun s => phi s 0)); [|exact Hb].
    rewrite Ha. exact (locally_singleton _ _ H1).
  - exists (fun s => D s * psi1 (phi s 0)). split; [|split].
    + assert (C1 : locally 0 (fun s => is_derive psi (phi s 0) (psi1 (phi s 0)))).
      { apply (derive_near (fun s => phi s 0) 0 b (fun x => is_derive psi x (psi1 x)) Hb).
        rewrite Ha. exact H1. }
      generalize (filter_and _ _ C1 HD). apply filter_imp. intros s [G1 G2].
      apply (is_derive_comp psi (fun t => phi s t)); assumption.
    + rewrite Ha, Hc. ring.
    + replace (psi1 a * d + psi2 * b * c) with (plus (d * psi1 (phi 0 0)) (D 0 * (b * psi2)))
        by (rewrite Ha, Hc; unfold plus; cbn; ring).
      apply (is_derive_mult D (fun s => psi1 (phi s 0)));
        [exact Hd| |intros; apply Rmult_comm].
      apply (is_derive_comp psi1 (fun s => phi s 0)); [|exact Hb]. rewrite Ha. exact H2.
Qed.

Lemma J2_plus p1 p2 a1 b1 c1 d1 a2 b2 c2 d2 : J2 p1 a1 b1 c1 d1 -> J2 p2 a2 b2 c2 d2 ->
  J2 (fun s t => p1 s t + p2 s t) (a1 + a2) (b1 + b2) (c1 + c2) (d1 + d2).
Proof.
  intros (Ha & Hb & D & HD & Hc & Hd) (Ha' & Hb' & D' & HD' & Hc' & Hd').
  split; [rewrite Ha, Ha'; reflexivity|]. split; [apply @is_derive_plus; assumption|].
  exists (fun s => D s + D' s). split; [|split; [rewrite Hc, Hc'; reflexivity|apply @is_derive_plus; assumption]].
  generalize (filter_and _ _ HD HD'). apply filter_imp. intros s [G1 G2].
  apply @is_derive_plus; assumption.
Qed.

Lemma J2_mult p1 p2 a1 b1 c1 d1 a2 b2 c2 d2 : J2 p1 a1 b1 c1 d1 -> J2 p2 a2 b2 c2 d2 ->
  J2 (fun s t => p1 s t * p2 s t) (a1 * a2) (b1 * a2 + a1 * b2) (c1 * a2 + a1 * c2)
     (d1 * a2 + c1 * b2 + b1 * c2 + a1 * d2).
Proof.
  intros (Ha & Hb & D & HD & Hc & Hd) (Ha' & Hb' & D' & HD' & Hc' & Hd').
  split; [rewrite Ha, Ha'; reflexivity|]. split.
  - rewrite <- Ha, <- Ha'. apply (is_derive_mult (fun s => p1 s 0) (fun s => p2 s 0));
      [exact Hb|exact Hb'|intros; apply Rmult_comm].
  - exists (fun s => D s * p2 s 0 + p1 s 0 * D' s). split; [|split].
    + generalize (filter_and _ _ HD HD'). apply filter_imp. intros s [G1 G2].
      apply (is_derive_mult (fun t => p1 s t) (fun t => p2 s t)); [exact G1|exact G2|intros; apply Rmult_comm].
    + rewrite Ha, Ha', Hc, Hc'. reflexivity.
    + replace (d1 * a2 + c1 * b2 + b1 * c2 + a1 * d2)
        with (plus (plus (d1 * p2 0 0) (D 0 * b2)) (plus (b1 * D' 0) (p1 0 0 * d2)))
        by (rewrite Ha, Ha', Hc, Hc'; unfold plus; cbn; ring).
      apply @is_derive_plus.
      * apply (is_derive_mult D (fun s => p2 s 0)); [exact Hd|exact Hb'|intros; apply Rmult_comm].
      * apply (is_derive_mult (fun s => p1 s 0) D'); [exact Hb|exact Hd'|intros; apply Rmult_comm].
Qed.
