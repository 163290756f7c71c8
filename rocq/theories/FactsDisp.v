(** Facts about Python's operator dispatch. *)
From Coq Require Import ZArith List Bool String Reals Lra Lia Permutation.
From Verif Require Import Outcome Scalar Model Spec RealOps ExprSpec ProgSpec NumSpec ModelS SpecS ModelPy FactsPy FactsLayout
  FactsExpr FactsNum FactsSReal FactsOps Core AccRep Expr Samples ModelDisp DispSpec.
Import ListNotations.
Open Scope string_scope.
Open Scope Z_scope.

Section Gen.
  Context {S : Type} (O : Ops S).

  Lemma same_class_refl c : same_class c c = true.
  Proof. unfold same_class. rewrite !Z.eqb_refl. reflexivity. Qed.
  Lemma same_class_iff c c' : same_class c c' = true <-> c_ord c = c_ord c' /\ c_tsize c = c_tsize c'.
  Proof. unfold same_class. rewrite andb_true_iff, !Z.eqb_eq. reflexivity. Qed.

  (** *** every expression *)
  Lemma lower_eval c n xs e : names_below (List.length xs) e ->
    (forall s, lower O e = Some (LFloat s) -> py_eval O (map (VNum c) xs) e = POk (VFloat s)) /\
    (forall l, lower O e = Some (LExpr l) -> vars_below (List.length xs) l /\
       py_eval O (map (VNum c) xs) e = num c (run O c n xs l)).
  Proof.
    induction e as [i|v|e IH|e IH|o e1 IH1 e2 IH2|e1 IH1 e2 IH2|m e IH|m e1 IH1 e2 IH2|m e1 IH1 e2 IH2 e3 IH3];
      cbn [names_below lower py_eval]; intros HN.
    - split; [discriminate|]. intros l [= <-]. split; [exact HN|]. cbn [run]. rewrite nth_error_map.
      destruct (nth_error xs i) as [x|] eqn:E; [reflexivity|]. apply nth_error_None in E. lia.
    - split; [intros s [= <-]; reflexivity|discriminate].
    - destruct (IH HN) as (IF & IE). destruct (lower O e) as [[s|l]|]; split; intros r [= <-].
      + rewrite (IF s eq_refl). reflexivity.
      + destruct (IE l eq_refl) as (V & ->). split; [exact V|]. cbn [run]. destruct (run O c n xs l); reflexivity.
    - destruct (IH HN) as (IF & IE). destruct (lower O e) as [[s|l]|]; split; intros r [= <-].
      + rewrite (IF s eq_refl). reflexivity.
      + destruct (IE l eq_refl) as (V & ->). split; [exact V|]. cbn [run]. destruct (run O c n xs l); reflexivity.
    - destruct HN as (N1 & N2). destruct (IH1 N1) as (IF1 & IE1). destruct (IH2 N2) as (IF2 & IE2).
      destruct (lower O e1) as [[a|l1]|]; destruct (lower O e2) as [[b|l2]|];
        try (split; intros r HH; discriminate HH).
      + rewrite (IF1 a eq_refl), (IF2 b eq_refl). cbn [pbind]. unfold py_op, forward, float_op.
        destruct o; try destruct (o_eq O b (o_Z O 0)); split; intros r [= <-]; reflexivity.
      + rewrite (IF1 a eq_refl). destruct (IE2 l2 eq_refl) as (V2 & ->). split; [discriminate|]. intros r [= <-].
        split; [exact V2|]. cbn [run pbind]. unfold num. destruct (run O c n xs l2); destruct o; reflexivity.
      + rewrite (IF2 b eq_refl). destruct (IE1 l1 eq_refl) as (V1 & ->). split; [discriminate|]. intros r [= <-].
        split; [exact V1|]. cbn [run pbind]. unfold num. destruct (run O c n xs l1); destruct o; reflexivity.
      + destruct (IE1 l1 eq_refl) as (V1 & ->). destruct (IE2 l2 eq_refl) as (V2 & ->). split; [discriminate|]. intros r [= <-].
        split; [split; assumption|]. cbn [run]. unfold num. destruct (run O c n xs l1); cbn [lift pbind bind]; try reflexivity.
        destruct (run O c n xs l2); cbn [lift pbind bind]; try reflexivity.
        unfold py_op, forward. rewrite same_class_refl. destruct o; reflexivity.
    - destruct HN as (N1 & N2). destruct (IH1 N1) as (IF1 & IE1). destruct (IH2 N2) as (IF2 & IE2).
      destruct (lower O e1) as [[a|l1]|]; destruct (lower O e2) as [[b|l2]|];
        try (split; intros r HH; discriminate HH).
      + rewrite (IF1 a eq_refl), (IF2 b eq_refl). split; intros r [= <-]. reflexivity.
      + rewrite (IF2 b eq_refl). destruct (IE1 l1 eq_refl) as (V1 & ->). split; [discriminate|]. intros r [= <-].
        split; [exact V1|]. cbn [run pbind]. unfold num. destruct (run O c n xs l1); reflexivity.
    - destruct (IH HN) as (IF & IE). destruct (lower O e) as [[s|l]|]; try (split; intros r HH; discriminate HH).
      destruct (assoc m methods0) as [u|] eqn:A; [|split; intros r HH; discriminate HH]. split; [discriminate|]. intros r [= <-].
      destruct (IE l eq_refl) as (V & ->). split; [exact V|]. cbn [run]. unfold num.
      destruct (run O c n xs l); cbn [lift pbind bind]; try reflexivity. unfold py_call0. rewrite A. reflexivity.
    - destruct HN as (N1 & N2). destruct (IH1 N1) as (IF1 & IE1). destruct (IH2 N2) as (IF2 & IE2).
      destruct (lower O e1) as [[a|l1]|]; destruct (lower O e2) as [[b|l2]|];
        try (split; intros r HH; discriminate HH).
      + rewrite (IF2 b eq_refl). destruct (IE1 l1 eq_refl) as (V1 & ->).
        destruct (String.eqb m "log") eqn:M; [|split; intros r HH; discriminate HH]. split; [discriminate|]. intros r [= <-].
        split; [exact V1|]. cbn [run pbind]. unfold num. destruct (run O c n xs l1); cbn [lift pbind bind]; try reflexivity.
        unfold py_call1. rewrite M. reflexivity.
      + destruct (IE1 l1 eq_refl) as (V1 & ->). destruct (IE2 l2 eq_refl) as (V2 & ->).
        destruct (assoc m methods1) as [f|] eqn:A; [|split; intros r HH; discriminate HH]. split; [discriminate|]. intros r [= <-].
        split; [split; assumption|]. cbn [run]. unfold num. destruct (run O c n xs l1); cbn [lift pbind bind]; try reflexivity.
        destruct (run O c n xs l2); cbn [lift pbind bind]; try reflexivity.
        unfold py_call1. rewrite A, same_class_refl. reflexivity.
    - destruct HN as (N1 & N2 & N3). destruct (IH1 N1) as (IF1 & IE1). destruct (IH2 N2) as (IF2 & IE2).
      destruct (IH3 N3) as (IF3 & IE3).
      destruct (lower O e1) as [[a|l1]|]; destruct (lower O e2) as [[b|l2]|]; destruct (lower O e3) as [[d|l3]|];
        try (split; intros r HH; discriminate HH).
      destruct (String.eqb m "hypot") eqn:M; [|split; intros r HH; discriminate HH]. split; [discriminate|]. intros r [= <-].
      destruct (IE1 l1 eq_refl) as (V1 & ->). destruct (IE2 l2 eq_refl) as (V2 & ->). destruct (IE3 l3 eq_refl) as (V3 & ->).
      split; [repeat split; assumption|]. cbn [run]. unfold num.
      destruct (run O c n xs l1); cbn [lift pbind bind]; try reflexivity.
      destruct (run O c n xs l2); cbn [lift pbind bind]; try reflexivity.
      destruct (run O c n xs l3); cbn [lift pbind bind]; try reflexivity.
      unfold py_call2. rewrite M, !same_class_refl. reflexivity.
  Qed.

  Lemma lower_eval_sparse (d : ss S) ys e : names_below (List.length ys) e ->
    (forall s, lower O e = Some (LFloat s) -> py_eval O (map VSparse ys) e = POk (VFloat s)) /\
    (forall l, lower O e = Some (LExpr l) -> vars_below (List.length ys) l /\
       py_eval O (map VSparse ys) e = POk (VSparse (s_run O (fun i => nth i ys d) l))).
  Proof.
    induction e as [i|v|e IH|e IH|o e1 IH1 e2 IH2|e1 IH1 e2 IH2|m e IH|m e1 IH1 e2 IH2|m e1 IH1 e2 IH2 e3 IH3];
      cbn [names_below lower py_eval]; intros HN.
    - split; [discriminate|]. intros l [= <-]. split; [exact HN|]. cbn [s_run]. rewrite nth_error_map.
      rewrite (nth_error_nth' ys d HN). reflexivity.
    - split; [intros s [= <-]; reflexivity|discriminate].
    - destruct (IH HN) as (IF & IE). destruct (lower O e) as [[s|l]|]; split; intros r [= <-].
      + rewrite (IF s eq_refl). reflexivity.
      + destruct (IE l eq_refl) as (V & ->). split; [exact V|reflexivity].
    - destruct (IH HN) as (IF & IE). destruct (lower O e) as [[s|l]|]; split; intros r [= <-].
      + rewrite (IF s eq_refl). reflexivity.
      + destruct (IE l eq_refl) as (V & ->). split; [exact V|reflexivity].
    - destruct HN as (N1 & N2). destruct (IH1 N1) as (IF1 & IE1). destruct (IH2 N2) as (IF2 & IE2).
      destruct (lower O e1) as [[a|l1]|]; destruct (lower O e2) as [[b|l2]|];
        try (split; intros r HH; discriminate HH).
      + rewrite (IF1 a eq_refl), (IF2 b eq_refl). cbn [pbind]. unfold py_op, forward, float_op.
        destruct o; try destruct (o_eq O b (o_Z O 0)); split; intros r [= <-]; reflexivity.
      + rewrite (IF1 a eq_refl). destruct (IE2 l2 eq_refl) as (V2 & ->). split; [discriminate|]. intros r [= <-].
        split; [exact V2|]. destruct o; reflexivity.
      + rewrite (IF2 b eq_refl). destruct (IE1 l1 eq_refl) as (V1 & ->). split; [discriminate|]. intros r [= <-].
        split; [exact V1|]. destruct o; reflexivity.
      + destruct (IE1 l1 eq_refl) as (V1 & ->). destruct (IE2 l2 eq_refl) as (V2 & ->). split; [discriminate|]. intros r [= <-].
        split; [split; assumption|]. destruct o; reflexivity.
    - destruct HN as (N1 & N2). destruct (IH1 N1) as (IF1 & IE1). destruct (IH2 N2) as (IF2 & IE2).
      destruct (lower O e1) as [[a|l1]|]; destruct (lower O e2) as [[b|l2]|];
        try (split; intros r HH; discriminate HH).
      + rewrite (IF1 a eq_refl), (IF2 b eq_refl). split; intros r [= <-]. reflexivity.
      + rewrite (IF2 b eq_refl). destruct (IE1 l1 eq_refl) as (V1 & ->). split; [discriminate|]. intros r [= <-].
        split; [exact V1|reflexivity].
    - destruct (IH HN) as (IF & IE). destruct (lower O e) as [[s|l]|]; try (split; intros r HH; discriminate HH).
      destruct (assoc m methods0) as [u|] eqn:A; [|split; intros r HH; discriminate HH]. split; [discriminate|]. intros r [= <-].
      destruct (IE l eq_refl) as (V & ->). split; [exact V|]. cbn [pbind]. unfold py_call0. rewrite A. reflexivity.
    - destruct HN as (N1 & N2). destruct (IH1 N1) as (IF1 & IE1). destruct (IH2 N2) as (IF2 & IE2).
      destruct (lower O e1) as [[a|l1]|]; destruct (lower O e2) as [[b|l2]|];
        try (split; intros r HH; discriminate HH).
      + rewrite (IF2 b eq_refl). destruct (IE1 l1 eq_refl) as (V1 & ->).
        destruct (String.eqb m "log") eqn:M; [|split; intros r HH; discriminate HH]. split; [discriminate|]. intros r [= <-].
        split; [exact V1|]. cbn [pbind]. unfold py_call1. rewrite M. reflexivity.
      + destruct (IE1 l1 eq_refl) as (V1 & ->). destruct (IE2 l2 eq_refl) as (V2 & ->).
        destruct (assoc m methods1) as [f|] eqn:A; [|split; intros r HH; discriminate HH]. split; [discriminate|]. intros r [= <-].
        split; [split; assumption|]. cbn [pbind]. unfold py_call1. rewrite A. reflexivity.
    - destruct HN as (N1 & N2 & N3). destruct (IH1 N1) as (IF1 & IE1). destruct (IH2 N2) as (IF2 & IE2).
      destruct (IH3 N3) as (IF3 & IE3).
      destruct (lower O e1) as [[a|l1]|]; destruct (lower O e2) as [[b|l2]|]; destruct (lower O e3) as [[g|l3]|];
        try (split; intros r HH; discriminate HH).
      destruct (String.eqb m "hypot") eqn:M; [|split; intros r HH; discriminate HH]. split; [discriminate|]. intros r [= <-].
      destruct (IE1 l1 eq_refl) as (V1 & ->). destruct (IE2 l2 eq_refl) as (V2 & ->). destruct (IE3 l3 eq_refl) as (V3 & ->).
      split; [repeat split; assumption|]. cbn [pbind]. unfold py_call2. rewrite M. reflexivity.
  Qed.

  (** *** rejections *)
  Lemma op_rejects o (a b : pval S) : ~ alike a b -> py_op O o a b = PRaise EType.
  Proof.
    intros N. destruct a as [s|c x|y|], b as [t|c' x'|y'|]; cbn in N; try tauto; try reflexivity.
    rewrite <- same_class_iff in N. unfold py_op, forward. destruct (same_class c c'); [tauto|reflexivity].
  Qed.
  Lemma cmp_rejects o (a b : pval S) : ~ alike a b ->
    py_cmp O o a b = match o with Ceq => POk false | Cne => POk true | _ => PRaise EType end.
  Proof.
    intros N. destruct a as [s|c x|y|], b as [t|c' x'|y'|]; cbn in N; try tauto; try (destruct o; reflexivity).
    rewrite <- same_class_iff in N. unfold py_cmp, forward_cmp. destruct (same_class c c') eqn:E; [tauto|].
    assert (E' : same_class c' c = false).
    { destruct (same_class c' c) eqn:E'; [|reflexivity]. apply same_class_iff in E'.
      assert (same_class c c' = true) by (apply same_class_iff; split; symmetry; apply E'). congruence. }
    rewrite E'. destruct o; reflexivity.
  Qed.
  Lemma pow_rejects (a b : pval S) : ~ is_float b -> py_pow O a b = PRaise EType.
  Proof. destruct a, b; cbn; tauto || reflexivity. Qed.
  Lemma mirror_float o c (x : dd S) s : py_cmp O o (VFloat s) (VNum c x) = lift (s_compare O o s x).
  Proof. destruct o; reflexivity. Qed.
  Lemma mirror_float_s o (y : ss S) s : py_cmp O o (VFloat s) (VSparse y) = POk (s_compare_ss O o s y).
  Proof. destruct o; reflexivity. Qed.

  Lemma cmp_rejects' (a b : pval S) : ~ alike a b ->
    py_cmp O Ceq a b = POk false /\ py_cmp O Cne a b = POk true /\
    forall o, o = Clt \/ o = Cgt \/ o = Cle \/ o = Cge -> py_cmp O o a b = PRaise EType.
  Proof.
    intros N. split; [apply (cmp_rejects Ceq a b N)|]. split; [apply (cmp_rejects Cne a b N)|].
    intros o Ho. rewrite (cmp_rejects o a b N). destruct o; intuition discriminate.
  Qed.
  Lemma lower_eval' c n xs e : names_below (List.length xs) e ->
    (forall s, lower O e = Some (LFloat s) -> py_eval O (map (VNum c) xs) e = POk (VFloat s)) /\
    (forall l, lower O e = Some (LExpr l) -> vars_below (List.length xs) l /\
       py_eval O (map (VNum c) xs) e = match run O c n xs l with
         | Ok r => POk (VNum c r) | Throw x => PRaise (ELib x) | Abort => PAbort | UB => PWild end).
  Proof.
    intros H. destruct (lower_eval c n xs e H) as (A & B). split; [exact A|]. intros l E. destruct (B l E) as (V & ->).
    split; [exact V|]. destruct (run O c n xs l); reflexivity.
  Qed.
  Lemma mirror_values o c (x : dd S) (y : ss S) s v : (forall a b, o_eq O a b = o_eq O b a) -> get_f x = Ok v ->
    py_cmp O o (VFloat s) (VNum c x) = POk (scmp O o s v) /\ py_cmp O o (VFloat s) (VSparse y) = POk (scmp O o s (s_get_f y)).
  Proof.
    intros HS F. rewrite mirror_float, mirror_float_s.
    destruct o; cbn; unfold compare_s; rewrite F; cbn; unfold s_get_f, ss_compare_s; cbn; rewrite ?(HS s); split; reflexivity.
  Qed.

  (** *** truth values, repr *)
  Lemma truth_dense c n (x : dd S) : wf c n x -> py_truth O (VNum c x) = POk (negb (Nat.eqb n 0)) /\ py_len (VNum c x) = POk (Z.of_nat n).
  Proof.
    intros (HS & _). unfold py_truth, py_len. rewrite HS.
    replace (Z.of_nat n <? 0) with false by (symmetry; apply Z.ltb_ge; lia). cbn [pbind].
    destruct n as [|n]; [split; reflexivity|]. split; [|reflexivity].
    replace (Z.of_nat (Datatypes.S n) =? 0) with false by (symmetry; apply Z.eqb_neq; lia). reflexivity.
  Qed.
  Lemma truth_sparse (y : ss S) : py_truth O (VSparse y) = POk (match names y with [] => false | _ => true end) /\
    py_len (VSparse y) = POk (Z.of_nat (List.length (names y))).
  Proof.
    unfold py_truth, py_len, s_size, names. rewrite map_length. destruct (s_d y) as [|[k v] t]; [split; reflexivity|].
    split; [|reflexivity]. cbn [pbind List.length map].
    replace (Z.of_nat (Datatypes.S (List.length t)) =? 0) with false by (symmetry; apply Z.eqb_neq; lia). reflexivity.
  Qed.
  Lemma truth_malformed c (x : dd S) : size c x < 0 -> py_truth O (VNum c x) = PRaise EValue /\ py_len (VNum c x) = PRaise EValue.
  Proof.
    intros H. unfold py_truth, py_len. replace (size c x <? 0) with true by (symmetry; apply Z.ltb_lt; lia). split; reflexivity.
  Qed.

  Lemma app_assoc_s (a b c : string) : ((a ++ b) ++ c = a ++ (b ++ c))%string.
  Proof. induction a as [|ch a IH]; [reflexivity|]. cbn. f_equal. exact IH. Qed.
  Lemma concat_fold (fmt : S -> string) t a :
    fold_left (fun out e => (out ++ entry_repr O fmt e)%string) t a = (a ++ String.concat "" (map (entry_repr O fmt) t))%string.
  Proof.
    revert a. induction t as [|e t IH]; intros a; cbn [fold_left map String.concat].
    - induction a as [|ch a IHa]; [reflexivity|]. cbn. f_equal. exact IHa.
    - rewrite IH, app_assoc_s. f_equal. destruct t as [|e' t']; [|reflexivity].
      cbn [map String.concat]. induction (entry_repr O fmt e) as [|ch s IHs]; [reflexivity|]. cbn. f_equal. exact IHs.
  Qed.
  Lemma sparse_repr (fmt : S -> string) (y : ss S) :
    ss_repr O fmt y = (fmt (s_f y) ++ String.concat "" (map (fun e =>
      " " ++ (if o_lt O (snd e) (o_Z O 0) then "" else "+") ++ fmt (snd e) ++ "*d" ++ fst e) (s_d y)))%string.
  Proof.
    unfold ss_repr. rewrite concat_fold. f_equal. f_equal. apply map_ext. intros e. unfold entry_repr.
    destruct (o_lt O (snd e) (o_Z O 0)); reflexivity.
  Qed.
  Lemma dense_repr (fmt : S -> string) c n x f g h : shows c n x f g h -> dd_repr fmt x = Ok (fmt f ++ "hj")%string.
  Proof. intros (_ & F & _). unfold dd_repr. rewrite F. reflexivity. Qed.
End Gen.

Definition fmt1 (z : Z) : string := if z =? 1 then "1" else if z =? 0 then "0" else "2".
Lemma repr_order_witness : ~ (forall (S : Type) (O : Ops S) (fmt : S -> string) (y y' : ss S), keys_ok y -> reorders y y' ->
  ss_repr O fmt y = ss_repr O fmt y').
Proof.
  intros H. specialize (H Z Zops fmt1 (mks 2 [("a", 1); ("b", 1)]) (mks 2 [("b", 1); ("a", 1)])).
  assert (E : ss_repr Zops fmt1 (mks 2 [("a", 1); ("b", 1)]) <> ss_repr Zops fmt1 (mks 2 [("b", 1); ("a", 1)])) by (vm_compute; discriminate).
  apply E, H.
  - repeat constructor; cbn; intuition discriminate.
  - split; [reflexivity|apply perm_swap].
Qed.
Lemma truth_witness : ~ (forall (c : cfg) (n : nat) (x : dd Z) (v : Z), cfg_ok c -> wf c n x -> get_f x = Ok v ->
  py_truth Zops (VNum c x) = POk (negb (v =? 0))).
Proof.
  intros H. specialize (H dyn1 1%nat (mk 1 (full [0; 1])) 0 cfg_dyn1).
  assert (W : wf dyn1 1 (mk 1 (full [0; 1]))) by (apply wf_list; [reflexivity|reflexivity|vm_compute; discriminate]).
  specialize (H W eq_refl). vm_compute in H. discriminate.
Qed.
Lemma truth_sparse_witness : ~ (forall y : ss Z, keys_ok y -> py_truth Zops (VSparse y) = POk (negb (s_get_f y =? 0))).
Proof. intros H. specialize (H (s_constant 5) (NoDup_nil _)). discriminate. Qed.

Lemma module_hypot {S} (O : Ops S) c (x : dd S) (a : pval S) d :
  py_hypot O (VNum c x) a = py_call1 O "hypot" (VNum c x) a /\ py_hypot3 O (VNum c x) a d = py_call2 O "hypot" (VNum c x) a d.
Proof.
  destruct a as [s|c1 y|y|]; split; reflexivity.
Qed.
Lemma module_hypot_witness : ~ (forall (x y : ss Z), keys_ok x -> keys_ok y ->
  py_hypot Zops (VSparse x) (VSparse y) = py_call1 Zops "hypot" (VSparse x) (VSparse y)).
Proof. intros H. specialize (H (s_constant 3) (s_constant 4) (NoDup_nil _) (NoDup_nil _)). discriminate. Qed.

Open Scope R_scope.
(** *** reals *)
Lemma assoc_pair {A B} (P : A -> B -> Prop) (l : list (string * A)) (l' : list (string * B)) m :
  Forall2 (fun a b => fst a = fst b /\ P (snd a) (snd b)) l l' ->
  match assoc m l, assoc m l' with Some a, Some b => P a b | None, None => True | _, _ => False end.
Proof.
  unfold assoc. induction 1 as [|[k a] [k' b] l l' (E & H) HF IH]; [exact I|]. cbn in E, H. subst k'. cbn [find fst].
  destruct (String.eqb k m); [exact H|exact IH].
Qed.
Lemma named0_ok m : match assoc m named0, assoc m (methods0 (S := R)) with
  | Some (f, D), Some u => forall x, f x = ureal u x /\ (D x -> udom u x) | None, None => True | _, _ => False end.
Proof.
  pose proof (assoc_pair (fun (fd : (R -> R) * (R -> Prop)) u => forall x, fst fd x = ureal u x /\ (snd fd x -> udom u x))
    named0 (methods0 (S := R)) m) as H.
  destruct (assoc m named0) as [[f D]|]; destruct (assoc m methods0); apply H; unfold named0, methods0;
    repeat (apply Forall2_cons; [split; [reflexivity|cbn; intros x; split; [reflexivity|tauto]]|]); apply Forall2_nil.
Qed.
Lemma named1_ok m : match assoc m named1, assoc m methods1 with
  | Some (f, D), Some b => forall x y, f x y = breal b x y /\ (D x y -> bdom b x y) | None, None => True | _, _ => False end.
Proof.
  pose proof (assoc_pair (fun (fd : (R -> R -> R) * (R -> R -> Prop)) b => forall x y, fst fd x y = breal b x y /\ (snd fd x y -> bdom b x y))
    named1 methods1 m) as H.
  destruct (assoc m named1) as [[f D]|]; destruct (assoc m methods1); apply H; unfold named1, methods1;
    repeat (apply Forall2_cons; [split; [reflexivity|cbn; intros x y; split; [reflexivity|tauto]]|]); apply Forall2_nil.
Qed.

Lemma lower_real e p : py_dom e p ->
  if mentions e then exists l, lower Rops e = Some (LExpr l) /\ (forall q, rev l q = py_real e q) /\ dom l p
  else exists s, lower Rops e = Some (LFloat s) /\ forall q, py_real e q = s.
Proof.
  induction e as [i|v|e IH|e IH|o e1 IH1 e2 IH2|e1 IH1 e2 IH2|m e IH|m e1 IH1 e2 IH2|m e1 IH1 e2 IH2 e3 IH3];
    cbn [py_dom mentions lower py_real]; intros HD.
  - exists (EVar i). repeat split.
  - exists v. split; reflexivity.
  - specialize (IH HD). destruct (mentions e).
    + destruct IH as (l & -> & HR & D). exists (EU Uneg l). split; [reflexivity|]. split; [|split; [exact D|exact I]].
      intros q. cbn. rewrite HR. reflexivity.
    + destruct IH as (s & -> & HR). exists (- s). split; [reflexivity|]. intros q. rewrite HR. reflexivity.
  - destruct HD as (HD & HM). specialize (IH HD). destruct (mentions e).
    + destruct IH as (l & -> & HR & D). exists (EU Uabs l). split; [reflexivity|].
      split; [intros q; cbn; rewrite HR; reflexivity|]. split; [exact D|]. cbn. rewrite HR. apply HM; reflexivity.
    + destruct IH as (s & -> & HR). eexists. split; [reflexivity|]. intros q. rewrite HR. cbn.
      unfold Rltb. destruct (Rlt_dec s 0); [apply Rabs_left; lra|apply Rabs_pos_eq; lra].
  - destruct HD as (D1 & D2 & HM). specialize (IH1 D1). specialize (IH2 D2).
    destruct (mentions e1), (mentions e2); cbn [orb].
    + destruct IH1 as (l1 & -> & R1 & L1), IH2 as (l2 & -> & R2 & L2). eexists. split; [reflexivity|].
      split; [intros q; cbn; rewrite R1, R2; destruct o; reflexivity|]. split; [exact L1|]. split; [exact L2|].
      rewrite R1, R2. destruct o; cbn; auto.
    + destruct IH1 as (l1 & -> & R1 & L1), IH2 as (s & -> & R2). eexists. split; [reflexivity|].
      split; [intros q; cbn; rewrite R1, R2; destruct o; reflexivity|]. split; [exact L1|].
      rewrite R1. rewrite R2 in HM. destruct o; cbn; auto.
    + destruct IH1 as (s & -> & R1), IH2 as (l2 & -> & R2 & L2). eexists. split; [reflexivity|].
      split; [intros q; cbn; rewrite R1, R2; destruct o; reflexivity|]. split; [exact L2|].
      rewrite R2. destruct o; cbn; auto.
    + destruct IH1 as (s & -> & R1), IH2 as (t & -> & R2). rewrite R2 in HM.
      destruct o; try (eexists; split; [reflexivity|]; intros q; rewrite R1, R2; reflexivity).
      cbn [o_eq Rops]. unfold Reqb. cbn [o_Z Rops]. destruct (Req_EM_T t (IZR 0)) as [E|N]; [contradiction|].
      eexists; split; [reflexivity|]; intros q; rewrite R1, R2; reflexivity.
  - destruct HD as (D1 & D2 & HF & HM). specialize (IH1 D1). specialize (IH2 D2). rewrite HF in *. rewrite orb_false_r.
    destruct IH2 as (b & -> & R2). cbn in HM. rewrite R2 in HM.
    destruct (mentions e1).
    + destruct IH1 as (l1 & -> & R1 & L1). eexists. split; [reflexivity|]. split; [intros q; cbn; rewrite R1, R2; reflexivity|].
      split; [exact L1|]. rewrite R1. exact HM.
    + destruct IH1 as (s & -> & R1). eexists. split; [reflexivity|]. intros q. rewrite R1, R2. reflexivity.
  - destruct HD as (D & HM & HN). specialize (IH D). rewrite HM in *. destruct IH as (l & -> & HR & L).
    pose proof (named0_ok m) as N. destruct (assoc m named0) as [[f Df]|]; [|contradiction].
    destruct (assoc m methods0) as [u|]; [|contradiction]. eexists. split; [reflexivity|].
    split; [intros q; cbn; rewrite HR; symmetry; apply N|]. split; [exact L|]. rewrite HR. apply N, HN.
  - destruct HD as (D1 & D2 & HM & HN). specialize (IH1 D1). specialize (IH2 D2). rewrite HM in *. cbn [orb].
    destruct IH1 as (l1 & -> & R1 & L1). destruct (mentions e2).
    + destruct IH2 as (l2 & -> & R2 & L2). pose proof (named1_ok m) as N. destruct (assoc m named1) as [[f Df]|]; [|contradiction].
      destruct (assoc m methods1) as [b|]; [|contradiction]. eexists. split; [reflexivity|].
      split; [intros q; cbn; rewrite R1, R2; symmetry; apply N|]. split; [exact L1|]. split; [exact L2|].
      rewrite R1, R2. apply N, HN.
    + destruct IH2 as (s & -> & R2). destruct HN as (-> & HN). cbn [String.eqb]. rewrite R2 in HN. eexists. split; [reflexivity|].
      split; [intros q; cbn; rewrite R1, R2; reflexivity|]. split; [exact L1|]. cbn. rewrite R1. tauto.
  - destruct HD as (D1 & D2 & D3 & -> & M1 & M2 & M3 & HN). specialize (IH1 D1). specialize (IH2 D2). specialize (IH3 D3).
    rewrite M1, M2, M3 in *. cbn [orb]. destruct IH1 as (l1 & -> & R1 & L1), IH2 as (l2 & -> & R2 & L2), IH3 as (l3 & -> & R3 & L3).
    eexists. split; [reflexivity|]. split; [intros q; cbn; rewrite R1, R2, R3; reflexivity|].
    cbn [dom]. rewrite R1, R2, R3. repeat split; assumption.
Qed.

Lemma partial_ext F G i p l : (forall q, F q = G q) -> partial F i p l -> partial G i p l.
Proof. intros E. unfold partial. apply Coquelicot.Derive.is_derive_ext. intros t. apply E. Qed.
Lemma partial2_ext F G i j p l : (forall q, F q = G q) -> partial2 F i j p l -> partial2 G i j p l.
Proof.
  intros E (D & H1 & H2). exists D. split; [|exact H2]. revert H1. apply Coquelicot.Hierarchy.filter_imp.
  intros s. apply partial_ext, E.
Qed.

(** [hj.variables] and a Python expression. *)
Lemma py_variables_numbers (dbg : bool) (order : Z) (vs : list R) :
  (order = 1 \/ order = 2)%Z -> (Z.of_nat (storage_len order (List.length vs)) <= max_len)%Z ->
  exists c xs, c_ord c = order /\ cfg_ok c /\ size_ok c (List.length vs) /\
    py_variables Rops dbg vs order = Ok (map (PNum c) xs) /\ variables Rops c vs = Ok xs.
Proof.
  intros Ho HL. exists (pychoice dbg order (List.length vs)).
  assert (Hc : cfg_ok (pychoice dbg order (List.length vs))).
  { split; [exact Ho|]. cbn. destruct (Nat.leb (List.length vs) 15); lia. }
  assert (SO : size_ok (pychoice dbg order (List.length vs)) (List.length vs)).
  { split; [|exact HL]. unfold pychoice, pycfg, is_dynamic. cbn [c_tsize].
    destruct (Nat.leb (List.length vs) 15); [reflexivity|discriminate]. }
  destruct (variables_rep Rops _ vs SO) as (xs & E & _). exists xs. split; [reflexivity|]. split; [exact Hc|]. split; [exact SO|].
  split; [|exact E]. replace (py_variables Rops dbg vs order) with (variables_of_order Rops dbg order vs) by (destruct Ho as [-> | ->]; reflexivity).
  destruct vs as [|v vs]; [|rewrite variables_of_order_eq by discriminate; rewrite E; reflexivity].
  destruct Ho as [-> | ->]; destruct dbg; vm_compute in E; injection E as <-; reflexivity.
Qed.

Lemma py_expression (dbg : bool) (order : Z) (n : nat) (e : pysrc R) (p : nat -> R) :
  (order = 1 \/ order = 2)%Z -> (Z.of_nat (storage_len order n) <= max_len)%Z -> names_below n e -> py_dom e p ->
  exists rs, py_variables Rops dbg (coords n p) order = Ok rs /\
    if mentions e
    then exists c r, c_ord c = order /\ py_eval Rops (map of_obj rs) e = POk (VNum c r) /\ wf c n r /\ get_f r = Ok (py_real e p) /\
      (forall i, (i < n)%nat -> exists g, get_g c r (Z.of_nat i) = Ok g /\ partial (py_real e) i p g) /\
      (order = 2%Z -> forall i j, (i < n)%nat -> (j < n)%nat ->
         exists h, get_h c r (Z.of_nat i) (Z.of_nat j) = Ok h /\ partial2 (py_real e) i j p h)
    else py_eval Rops (map of_obj rs) e = POk (VFloat (py_real e p)).
Proof.
  intros Ho HL HN HD.
  assert (Ln : List.length (coords n p) = n) by (unfold coords; rewrite map_length, seq_length; reflexivity).
  destruct (py_variables_numbers dbg order (coords n p) Ho) as (c & xs & Co & Hc & SO & EP & EV); [rewrite Ln; exact HL|].
  rewrite Ln in SO. exists (map (PNum c) xs). split; [exact EP|].
  assert (Lx : List.length xs = n).
  { destruct (variables_rep Rops c (coords n p)) as (xs' & E & L & _); [rewrite Ln; exact SO|]. rewrite E in EV.
    injection EV as ->. rewrite Ln in L. exact L. }
  rewrite map_map. change (fun x => of_obj (PNum c x)) with (@VNum R c). rewrite <- Lx in HN. destruct (lower_eval Rops c n xs e HN) as (HF & HE). rewrite Lx in *.
  pose proof (lower_real e p HD) as LR. destruct (mentions e).
  - destruct LR as (l & EL & HR & DL). destruct (HE l EL) as (VB & EE).
    destruct (exact1 c n l p Hc SO VB DL) as (xs1 & r & E1 & Er & W & F & g & HG & _).
    rewrite EV in E1. injection E1 as <-. exists c, r. split; [exact Co|]. split; [rewrite EE, Er; reflexivity|].
    split; [exact W|]. split; [rewrite F, HR; reflexivity|]. split.
    + intros i Hi. exists (g i). destruct (HG i Hi) as (G1 & G2). split; [exact G1|]. eapply partial_ext; [exact HR|exact G2].
    + intros O2 i j Hi Hj. rewrite <- Co in O2. destruct (exact2 c n l p Hc O2 SO VB DL) as (xs2 & r2 & E2 & Er2 & _ & h & HH & _).
      rewrite EV in E2. injection E2 as <-. rewrite Er in Er2. injection Er2 as <-. exists (h i j).
      destruct (HH i j Hi Hj) as (H1 & H2). split; [exact H1|]. eapply partial2_ext; [exact HR|exact H2].
  - destruct LR as (s & EL & HR). rewrite (HF s EL), HR. reflexivity.
Qed.

Lemma py_expression_sparse (n : nat) (nm : nat -> string) (e : pysrc R) (p : nat -> R) :
  distinct n nm -> names_below n e -> py_dom e p ->
  let env := map (fun i => VSparse (s_variable Rops (nm i) (p i))) (seq 0 n) in
  if mentions e
  then exists r, py_eval Rops env e = POk (VSparse r) /\ s_get_f r = py_real e p /\
    (forall i, (i < n)%nat -> partial (py_real e) i p (s_get_d Rops r (nm i)))
  else py_eval Rops env e = POk (VFloat (py_real e p)).
Proof.
  intros HD HN Dm env. set (ys := map (fun i => s_variable Rops (nm i) (p i)) (seq 0 n)).
  assert (EE : env = map VSparse ys) by (unfold env, ys; rewrite map_map; reflexivity). rewrite EE.
  assert (Ly : List.length ys = n) by (unfold ys; rewrite map_length, seq_length; reflexivity).
  rewrite <- Ly in HN. destruct (lower_eval_sparse Rops (s_variable Rops (nm n) (p n)) ys e HN) as (HF & HE). rewrite Ly in *.
  pose proof (lower_real e p Dm) as LR. destruct (mentions e).
  - destruct LR as (l & EL & HR & DL). destruct (HE l EL) as (VB & ER).
    destruct (sparse_exact n nm l p HD VB DL) as (F & G & _).
    assert (EQ : s_run Rops (fun i => nth i ys (s_variable Rops (nm n) (p n))) l = s_run Rops (fun i => s_variable Rops (nm i) (p i)) l).
    { clear - VB. revert VB. induction l as [i|s|u l IH|b l1 IH1 l2 IH2|l1 IH1 l2 IH2 l3 IH3]; cbn [vars_below s_run]; intros VB.
      - unfold ys. rewrite (nth_indep _ _ (s_variable Rops (nm 0%nat) (p 0%nat))) by (rewrite map_length, seq_length; exact VB).
        change (s_variable Rops (nm 0%nat) (p 0%nat)) with ((fun i => s_variable Rops (nm i) (p i)) 0%nat).
        rewrite map_nth, seq_nth by exact VB. reflexivity.
      - reflexivity.
      - rewrite IH by exact VB. reflexivity.
      - rewrite IH1, IH2 by apply VB. reflexivity.
      - rewrite IH1, IH2, IH3 by apply VB. reflexivity. }
    rewrite EQ in ER. eexists. split; [exact ER|]. split; [rewrite F, HR; reflexivity|].
    intros i Hi. eapply partial_ext; [exact HR|apply G, Hi].
  - destruct LR as (s & EL & HR). rewrite (HF s EL), HR. reflexivity.
Qed.
