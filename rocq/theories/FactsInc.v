(** Proofs about the chain-rule kernels, writing and adding (C86). *)
From Coq Require Import ZArith List Bool Reals Lra Lia.
From Verif Require Import Outcome Scalar RealOps Model Spec Core Kernels OpsRep FactsLayout FactsOps IncSpec.
Import ListNotations.
Open Scope Z_scope.
Open Scope res_scope.

(** ** The two passes, for any scalar type *)
Section Passes.
  Context {S : Type} (O : Ops S) (c : cfg).
  Context (Hcfg : cfg_ok c).

  Definition pass1 (inc : bool) (V : nat -> val S) (N : Z) (r : data S) : res (data S) :=
    for_ 1 N (fun i r => let v := V (Z.to_nat i) in
      if inc then o <- rd r i ;; wr r i (vacc O o v) else wr r i (vset O v)) r.
  Definition pass2 (n : Z) (T : nat -> nat -> val S) (r : data S) : res (data S) :=
    '(k, r) <- for_ 0 n (fun i st => for_ i n (fun j '(k, r) =>
       o <- rd r k ;; r <- wr r k (vacc O o (T (Z.to_nat i) (Z.to_nat j))) ;; Ok (k + 1, r)) st) (1 + n, r) ;;
    Ok r.
  Definition first (inc : bool) (V : nat -> val S) (k : nat) (o : S) : S := if inc then vacc O o (V k) else vset O (V k).

  Lemma pass1_ok inc n R f V r : isenc (c_ord c) n R r \/ (inc = false /\ length r = storage_len (c_ord c) n) ->
    exists r', pass1 inc V (Z.of_nat (storage_len (c_ord c) n)) (upd r 0 f) = Ok r' /\
      isenc (c_ord c) n (mkjet f (fun i => first inc V (1 + i) (jg R i)) (fun i j => first inc V (pos n i j) (jh R i j))) r'.
  Proof.
    intros HR. pose proof (storage_len_ge (c_ord c) n) as GE.
    assert (HL : length r = storage_len (c_ord c) n) by (destruct HR as [(HL & _)|(_ & HL)]; exact HL).
    set (G := fun k => first inc V k (nth k (enc (c_ord c) n R) f)).
    edestruct (fun body => ew_loop (S:=S) 1 (storage_len (c_ord c) n) body G (upd r 0 f)) as (r1 & E1 & H1); [reflexivity|reflexivity| | | |].
    { rewrite upd_length; exact HL. } { lia. }
    2:{ exists r1. split; [exact E1|]. apply after_ew in H1; [|exact HL]. eapply isenc_jeq; [|exact H1].
        split; [reflexivity|]. split; cbn [jf jg jh]; unfold G.
        - intros i Hi. rewrite nth_enc_g by exact Hi. reflexivity.
        - intros Ho i j Hij. rewrite nth_enc_h by assumption. reflexivity. }
    intros i r' Hi (L & _ & Hu). cbv zeta. rewrite Nat2Z.id. unfold G, first. destruct inc; [|reflexivity].
    destruct HR as [HR|(D & _)]; [|discriminate]. apply isenc_iff in HR. subst r.
    rewrite (rd_Some _ i _ (nth i (enc (c_ord c) n R) f)); [reflexivity|reflexivity|].
    rewrite Hu by lia. rewrite nth_error_upd_ne by lia. apply nth_error_full. apply nth_error_nth'. rewrite enc_length. lia.
  Qed.
  Lemma pass2_ok n B T r : c_ord c <> 1 -> isenc (c_ord c) n B r ->
    exists r', pass2 (Z.of_nat n) T r = Ok r' /\ isenc (c_ord c) n (mkjet (jf B) (jg B) (fun i j => vacc O (jh B i j) (T i j))) r'.
  Proof.
    intros Ho HB. assert (HN : storage_len (c_ord c) n = (1 + n + rs n n)%nat).
    { rewrite storage_len_rs. destruct (Z.eqb_spec (c_ord c) 1); [contradiction|reflexivity]. }
    set (T' := fun i j => vacc O (jh B i j) (T i j)). unfold pass2.
    edestruct (tri_loop n (1 + n + rs n n)%nat T' r) as (k & r2 & E2 & L2 & Hm & Ht);
      [reflexivity|reflexivity|reflexivity|destruct HB; lia| |rewrite E2; cbn [bind]].
    - intros i [k r2] Hi HP. cbn beta iota.
      eapply tri_inner with (T := T'); [reflexivity|reflexivity|reflexivity|exact Hi|exact HP|].
      intros j r3 Hj HP3. cbn beta iota. rewrite !Nat2Z.id.
      assert (Hcell : nth_error r3 (pos n i j) = Some (Some (jh B i j))).
      { destruct HP3 as (_ & _ & _ & _ & Hu). rewrite Hu by lia. destruct HB as (_ & _ & _ & HH). apply HH; [exact Ho|lia]. }
      rewrite (rd_Some _ (pos n i j) _ _ eq_refl Hcell). cbn [bind]. reflexivity.
    - exists r2. split; [reflexivity|]. split; [lia|]. destruct HB as (_ & H0 & HG & _). split; [rewrite Hm by lia; exact H0|]. split.
      + intros i Hi. rewrite Hm by lia. apply HG, Hi.
      + intros _ i j Hij. rewrite Ht by exact Hij. reflexivity.
  Qed.
  (** The shape common to the three kernels. *)
  Definition kernel (inc : bool) (n : nat) (f : S) (V : nat -> val S) (skip : bool) (T : nat -> nat -> val S) (r : data S) : res (data S) :=
    r <- wr r 0 f ;; r <- pass1 inc V (Z.of_nat (storage_len (c_ord c) n)) r ;;
    if (c_ord c <? 2) || skip then Ok r else pass2 (Z.of_nat n) T r.
  Lemma kernel_ok inc n R f V skip T r : isenc (c_ord c) n R r \/ (inc = false /\ length r = storage_len (c_ord c) n) ->
    exists r', kernel inc n f V skip T r = Ok r' /\
      isenc (c_ord c) n (mkjet f (fun i => first inc V (1 + i) (jg R i))
        (fun i j => let b := first inc V (pos n i j) (jh R i j) in if skip then b else vacc O b (T i j))) r'.
  Proof.
    intros HR. pose proof (storage_len_ge (c_ord c) n) as GE. unfold kernel.
    assert (HL : length r = storage_len (c_ord c) n) by (destruct HR as [(HL & _)|(_ & HL)]; exact HL).
    rewrite (wr_ok r 0%nat) by (try reflexivity; lia). cbn [bind].
    destruct (pass1_ok inc n R f V r HR) as (r1 & -> & H1). cbn [bind].
    destruct (Z.ltb_spec (c_ord c) 2) as [Hlt|Hge]; cbn [orb].
    { exists r1. split; [reflexivity|]. eapply isenc_jeq; [|exact H1]. split; [reflexivity|]. split; [reflexivity|].
      intros Ho. pose proof (ord_cases c Hcfg). lia. }
    destruct skip; [exists r1; split; [reflexivity|exact H1]|].
    destruct (pass2_ok n _ T r1 ltac:(lia) H1) as (r2 & -> & H2). exists r2. split; [reflexivity|exact H2].
  Qed.

  Context (n : nat) (this : dd S) (HS : size c this = Z.of_nat n) (HT : length (m_data this) = storage_len (c_ord c) n).
  Definition cell (J : jet S) (d : S) (k : nat) : S := nth k (enc (c_ord c) n J) d.
  Lemma cell_g J d i : (i < n)%nat -> cell J d (1 + i) = jg J i.
  Proof. intros H. apply nth_enc_g, H. Qed.
  Lemma cell_h J d i j : c_ord c <> 1 -> (i <= j < n)%nat -> cell J d (pos n i j) = jh J i j.
  Proof. intros Ho H. apply nth_enc_h; assumption. Qed.
  Lemma rd_cell J a d k : a = full (enc (c_ord c) n J) -> (0 <= k < Z.of_nat (storage_len (c_ord c) n)) -> rd a k = Ok (cell J d (Z.to_nat k)).
  Proof. intros -> H. rewrite <- (Z2Nat.id k) at 1 by lia. apply rd_full. rewrite enc_length. lia. Qed.
  Lemma in_storage i : 0 <= i < Z.of_nat n -> 0 <= 1 + i < Z.of_nat (storage_len (c_ord c) n).
  Proof. intros H. pose proof (storage_len_ge (c_ord c) n). lia. Qed.
  Lemma cell_1 J d i : 0 <= i < Z.of_nat n -> cell J d (Z.to_nat (1 + i)) = jg J (Z.to_nat i).
  Proof. intros H. rewrite Z2Nat.inj_add by lia. apply cell_g. lia. Qed.

  Lemma unary_kernel inc J a f da daa r : a = full (enc (c_ord c) n J) -> is_zero da = false ->
    unary O c inc this (Some a) f da daa r =
    kernel inc n f (fun k => cmul O da (cell J f k)) (is_zero daa) (fun i j => vmul O (cmul O daa (jg J i)) (jg J j)) r.
  Proof.
    intros HA Hz. unfold unary, kernel. rewrite (data_length_ok c n) by assumption. rewrite HS, Hz. cbn [deref].
    destruct (Z.ltb_spec (c_ord c) 1); [pose proof (ord_cases c Hcfg); lia|]. cbn [orb].
    destruct (wr r 0 f) as [r0| | |]; cbn [bind]; try reflexivity. unfold pass1.
    erewrite for_ext; [|intros i s Hi; rewrite (rd_cell J a f) by (try exact HA; lia); cbn [bind]; reflexivity].
    match goal with |- bind ?m _ = bind ?m' _ => change m' with m; destruct m as [r1| | |]; cbn [bind]; try reflexivity end.
    destruct ((c_ord c <? 2) || is_zero daa); [reflexivity|]. unfold pass2. f_equal.
    apply for_ext. intros i (k, s) Hi. cbn beta iota. rewrite (rd_cell J a f) by (try exact HA; apply in_storage; lia). cbn [bind].
    apply for_ext. intros j (k', s') Hj. rewrite (rd_cell J a f) by (try exact HA; apply in_storage; lia). cbn [bind].
    rewrite !cell_1 by lia. reflexivity.
  Qed.
  Lemma binary_kernel inc J K a b f da db daa dab dbb r : a = full (enc (c_ord c) n J) -> b = full (enc (c_ord c) n K) ->
    is_zero da && is_zero db = false ->
    binary O c inc this (Some a) (Some b) f da db daa dab dbb r =
    kernel inc n f (fun k => vadd O (cmul O da (cell J f k)) (cmul O db (cell K f k))) (is_zero daa && is_zero dab && is_zero dbb)
      (fun i j => vadd O (vmul O (vadd O (cmul O daa (jg J i)) (cmul O dab (jg K i))) (jg J j))
                         (vmul O (vadd O (cmul O dab (jg J i)) (cmul O dbb (jg K i))) (jg K j))) r.
  Proof.
    intros HA HB Hz. unfold binary, kernel. rewrite (data_length_ok c n) by assumption. rewrite HS, Hz. cbn [deref].
    destruct (Z.ltb_spec (c_ord c) 1); [pose proof (ord_cases c Hcfg); lia|]. cbn [orb].
    destruct (wr r 0 f) as [r0| | |]; cbn [bind]; try reflexivity. unfold pass1.
    erewrite for_ext; [|intros i s Hi; rewrite (rd_cell J a f) by (try exact HA; lia); rewrite (rd_cell K b f) by (try exact HB; lia); cbn [bind]; reflexivity].
    match goal with |- bind ?m _ = bind ?m' _ => change m' with m; destruct m as [r1| | |]; cbn [bind]; try reflexivity end.
    destruct ((c_ord c <? 2) || (is_zero daa && is_zero dab && is_zero dbb)); [reflexivity|]. unfold pass2. f_equal.
    apply for_ext. intros i (k, s) Hi. cbn beta iota.
    rewrite (rd_cell J a f) by (try exact HA; apply in_storage; lia). rewrite (rd_cell K b f) by (try exact HB; apply in_storage; lia). cbn [bind].
    apply for_ext. intros j (k', s') Hj.
    rewrite (rd_cell J a f) by (try exact HA; apply in_storage; lia). rewrite (rd_cell K b f) by (try exact HB; apply in_storage; lia). cbn [bind].
    rewrite !cell_1 by lia. reflexivity.
  Qed.
  Lemma ternary_kernel inc J K L a b e f da db dc daa dab dac dbb dbc dcc r :
    a = full (enc (c_ord c) n J) -> b = full (enc (c_ord c) n K) -> e = full (enc (c_ord c) n L) ->
    is_zero da && is_zero db && is_zero dc = false ->
    ternary O c inc this (Some a) (Some b) (Some e) f da db dc daa dab dac dbb dbc dcc r =
    kernel inc n f (fun k => vadd O (vadd O (cmul O da (cell J f k)) (cmul O db (cell K f k))) (cmul O dc (cell L f k)))
      (is_zero daa && is_zero dab && is_zero dac && is_zero dbb && is_zero dbc && is_zero dcc)
      (fun i j => vadd O (vadd O
         (vmul O (vadd O (vadd O (cmul O daa (jg J i)) (cmul O dab (jg K i))) (cmul O dac (jg L i))) (jg J j))
         (vmul O (vadd O (vadd O (cmul O dab (jg J i)) (cmul O dbb (jg K i))) (cmul O dbc (jg L i))) (jg K j)))
         (vmul O (vadd O (vadd O (cmul O dac (jg J i)) (cmul O dbc (jg K i))) (cmul O dcc (jg L i))) (jg L j))) r.
  Proof.
    intros HA HB HE Hz. unfold ternary, kernel. rewrite (data_length_ok c n) by assumption. rewrite HS, Hz. cbn [deref].
    destruct (Z.ltb_spec (c_ord c) 1); [pose proof (ord_cases c Hcfg); lia|]. cbn [orb].
    destruct (wr r 0 f) as [r0| | |]; cbn [bind]; try reflexivity. unfold pass1.
    erewrite for_ext; [|intros i s Hi; rewrite (rd_cell J a f) by (try exact HA; lia); rewrite (rd_cell K b f) by (try exact HB; lia);
      rewrite (rd_cell L e f) by (try exact HE; lia); cbn [bind]; reflexivity].
    match goal with |- bind ?m _ = bind ?m' _ => change m' with m; destruct m as [r1| | |]; cbn [bind]; try reflexivity end.
    destruct ((c_ord c <? 2) || _); [reflexivity|]. unfold pass2. f_equal.
    apply for_ext. intros i (k, s) Hi. cbn beta iota.
    rewrite (rd_cell J a f) by (try exact HA; apply in_storage; lia). rewrite (rd_cell K b f) by (try exact HB; apply in_storage; lia).
    rewrite (rd_cell L e f) by (try exact HE; apply in_storage; lia). cbn [bind].
    apply for_ext. intros j (k', s') Hj.
    rewrite (rd_cell J a f) by (try exact HA; apply in_storage; lia). rewrite (rd_cell K b f) by (try exact HB; apply in_storage; lia).
    rewrite (rd_cell L e f) by (try exact HE; apply in_storage; lia). cbn [bind].
    rewrite !cell_1 by lia. reflexivity.
  Qed.
End Passes.

(** ** Exact reals *)
Open Scope R_scope.
Definition amount (v : val R) : R := match v with VZero => 0 | V s => s end.
Lemma amount_cmul k x : amount (cmul Rops k x) = number k * x.
Proof. destruct k; cbn; ring. Qed.
Lemma amount_vadd a b : amount (vadd Rops a b) = amount a + amount b.
Proof. destruct a, b; cbn; ring. Qed.
Lemma amount_vmul a x : amount (vmul Rops a x) = amount a * x.
Proof. destruct a; cbn; ring. Qed.
Lemma vacc_amount o v : vacc Rops o v = o + amount v.
Proof. destruct v; cbn; ring. Qed.
Lemma vset_amount v : vset Rops v = amount v.
Proof. destruct v; reflexivity. Qed.
Lemma first_amount inc V k o : first Rops inc V k o = kept inc o + amount (V k).
Proof. unfold first, kept. destruct inc; [apply vacc_amount|rewrite vset_amount; ring]. Qed.
Lemma zero_number k : is_zero k = true -> number k = 0.
Proof. destruct k; try discriminate; reflexivity. Qed.
Lemma tag k : k <> CZero -> is_zero (S:=R) k = false.
Proof. destruct k; try reflexivity. intros H. contradiction. Qed.
Ltac amounts := rewrite ?first_amount, ?vacc_amount, ?amount_vadd, ?amount_vmul, ?amount_cmul, ?amount_vadd, ?amount_cmul.

Section Real.
  Context (c : cfg) (Hc : cfg_ok c) (n : nat).
  Lemma result_shows (r : dd R) d (J : jet R) f g h : wf c n r -> isenc (c_ord c) n J d -> jf J = f -> (forall i, (i < n)%nat -> jg J i = g i) ->
    (c_ord c = 2%Z -> forall i j, (i < n)%nat -> (j < n)%nat -> hess J i j = h i j) -> shows c n (mk (m_size r) d) f g h.
  Proof.
    intros W E Hf Hg Hh. assert (R : rep c n J (mk (m_size r) d)).
    { destruct (wf_rep _ _ _ W) as (K & HK). apply rep_intro; [eapply rep_size_ok, HK| |exact E]. destruct W as (HS & _). exact HS. }
    apply rep_shows in R. destruct R as (W' & F & G & H). split; [exact W'|]. rewrite <- Hf. split; [exact F|]. split.
    - intros i Hi. rewrite <- Hg by exact Hi. apply G, Hi.
    - intros Ho i j Hi Hj. rewrite <- Hh by assumption. apply H; assumption.
  Qed.
  Lemma pos_sym i j : (i < n)%nat -> (j < n)%nat -> (Nat.min i j <= Nat.max i j < n)%nat.
  Proof. lia. Qed.

  Context (this r : dd R) (fr : R) (gr : nat -> R) (hr : nat -> nat -> R).
  Context (Wt : wf c n this) (Hr : shows c n r fr gr hr).
  Lemma start inc : isenc (c_ord c) n (mkjet fr gr hr) (m_data r) \/ (inc = false /\ length (m_data r) = storage_len (c_ord c) n).
  Proof. left. apply isenc_rep. apply shows_rep; assumption. Qed.
  Lemma order_not1 : c_ord c = 2%Z -> c_ord c <> 1%Z. Proof. lia. Qed.
  Lemma sym_of (f : R) g h x i j : shows c n x f g h -> c_ord c = 2%Z -> (i < n)%nat -> (j < n)%nat -> h (Nat.min i j) (Nat.max i j) = h i j.
  Proof.
    intros Hx Ho Hi Hj. pose proof (shows_rep _ _ _ _ _ _ Hc Hx) as R. apply rep_shows in R. destruct R as (_ & _ & _ & HH).
    destruct Hx as (_ & _ & _ & H). pose proof (H Ho i j Hi Hj) as E. rewrite (HH Ho i j Hi Hj) in E. injection E as E. exact E.
  Qed.

  Lemma unary_real inc x f a g h da daa : shows c n x a g h -> da <> CZero ->
    exists d, unary Rops c inc this (Some (m_data x)) f da daa (m_data r) = Ok d /\
      shows c n (mk (m_size r) d) f (fun i => kept inc (gr i) + number da * g i)
        (fun i j => kept inc (hr i j) + number da * h i j + number daa * g i * g j).
  Proof.
    intros Hx Hz. pose proof (shows_rep _ _ _ _ _ _ Hc Hx) as HX. destruct Wt as (HS & HT & _).
    rewrite (unary_kernel Rops c Hc n this HS HT inc (mkjet a g h) (m_data x) f da daa (m_data r)) by (try apply tag, Hz; apply HX).
    destruct (kernel_ok Rops c Hc inc n (mkjet fr gr hr) f (fun k => cmul Rops da (cell c n (mkjet a g h) f k)) (is_zero daa)
      (fun i j => vmul Rops (cmul Rops daa (g i)) (g j)) (m_data r) (start inc)) as (d & E & H).
    exists d. split; [exact E|]. destruct Hr as (Wr & _). eapply result_shows; [exact Wr|exact H|reflexivity| |].
    - intros i Hi. cbn [jg]. amounts. rewrite cell_g by exact Hi. reflexivity.
    - intros Ho i j Hi Hj. unfold hess. cbn [jh]. cbv zeta. amounts. rewrite cell_h by (try apply order_not1; auto using pos_sym).
      cbn [jh]. rewrite (sym_of _ _ _ _ i j Hx Ho Hi Hj), (sym_of _ _ _ _ i j Hr Ho Hi Hj).
      assert (S : forall k, k * g (Nat.min i j) * g (Nat.max i j) = k * g i * g j).
      { intros k. destruct (Nat.le_ge_cases i j); [rewrite Nat.min_l, Nat.max_r by assumption|rewrite Nat.min_r, Nat.max_l by assumption]; ring. }
      destruct (is_zero daa) eqn:Z; [rewrite (zero_number _ Z); ring|]. rewrite S. reflexivity.
  Qed.
  Lemma binary_real inc x y f a b g g' h h' da db daa dab dbb : shows c n x a g h -> shows c n y b g' h' -> ~ (da = CZero /\ db = CZero) ->
    exists d, binary Rops c inc this (Some (m_data x)) (Some (m_data y)) f da db daa dab dbb (m_data r) = Ok d /\
      shows c n (mk (m_size r) d) f (fun i => kept inc (gr i) + number da * g i + number db * g' i)
        (fun i j => kept inc (hr i j) + number da * h i j + number db * h' i j + number daa * g i * g j
                    + number dab * (g i * g' j + g' i * g j) + number dbb * g' i * g' j).
  Proof.
    intros Hx Hy Hz. pose proof (shows_rep _ _ _ _ _ _ Hc Hx) as HX. pose proof (shows_rep _ _ _ _ _ _ Hc Hy) as HY. destruct Wt as (HS & HT & _).
    assert (Z0 : is_zero da && is_zero db = false) by (destruct da, db; try reflexivity; exfalso; apply Hz; auto).
    rewrite (binary_kernel Rops c Hc n this HS HT inc (mkjet a g h) (mkjet b g' h') (m_data x) (m_data y) f da db daa dab dbb (m_data r)) by (try exact Z0; try apply HX; apply HY).
    match goal with |- context [kernel Rops c inc n f ?V ?s ?T _] => destruct (kernel_ok Rops c Hc inc n (mkjet fr gr hr) f V s T (m_data r) (start inc)) as (d & E & H) end.
    exists d. split; [exact E|]. destruct Hr as (Wr & _). eapply result_shows; [exact Wr|exact H|reflexivity| |].
    - intros i Hi. cbn [jg]. amounts. rewrite !cell_g by exact Hi. cbn [jg]. ring.
    - intros Ho i j Hi Hj. unfold hess. cbn [jh]. cbv zeta. amounts. rewrite !cell_h by (try apply order_not1; auto using pos_sym).
      cbn [jh jg]. rewrite (sym_of _ _ _ _ i j Hx Ho Hi Hj), (sym_of _ _ _ _ i j Hy Ho Hi Hj), (sym_of _ _ _ _ i j Hr Ho Hi Hj).
      destruct (is_zero daa && is_zero dab && is_zero dbb) eqn:Z.
      + apply andb_prop in Z as (Z & Z3). apply andb_prop in Z as (Z1 & Z2).
        rewrite (zero_number _ Z1), (zero_number _ Z2), (zero_number _ Z3). ring.
      + destruct (Nat.le_ge_cases i j); [rewrite Nat.min_l, Nat.max_r by assumption|rewrite Nat.min_r, Nat.max_l by assumption]; ring.
  Qed.
  Lemma ternary_real inc x y z f a b e g g' g'' h h' h'' da db dc daa dab dac dbb dbc dcc :
    shows c n x a g h -> shows c n y b g' h' -> shows c n z e g'' h'' -> ~ (da = CZero /\ db = CZero /\ dc = CZero) ->
    exists d, ternary Rops c inc this (Some (m_data x)) (Some (m_data y)) (Some (m_data z)) f da db dc daa dab dac dbb dbc dcc (m_data r) = Ok d /\
      shows c n (mk (m_size r) d) f (fun i => kept inc (gr i) + number da * g i + number db * g' i + number dc * g'' i)
        (fun i j => kept inc (hr i j) + number da * h i j + number db * h' i j + number dc * h'' i j
                    + number daa * g i * g j + number dbb * g' i * g' j + number dcc * g'' i * g'' j
                    + number dab * (g i * g' j + g' i * g j) + number dac * (g i * g'' j + g'' i * g j)
                    + number dbc * (g' i * g'' j + g'' i * g' j)).
  Proof.
    intros Hx Hy Hw Hz. pose proof (shows_rep _ _ _ _ _ _ Hc Hx) as HX. pose proof (shows_rep _ _ _ _ _ _ Hc Hy) as HY.
    pose proof (shows_rep _ _ _ _ _ _ Hc Hw) as HW. destruct Wt as (HS & HT & _).
    assert (Z0 : is_zero da && is_zero db && is_zero dc = false) by (destruct da, db, dc; try reflexivity; exfalso; apply Hz; auto).
    rewrite (ternary_kernel Rops c Hc n this HS HT inc (mkjet a g h) (mkjet b g' h') (mkjet e g'' h'') (m_data x) (m_data y) (m_data z)
      f da db dc daa dab dac dbb dbc dcc (m_data r)) by (try exact Z0; try apply HX; try apply HY; apply HW).
    match goal with |- context [kernel Rops c inc n f ?V ?s ?T _] => destruct (kernel_ok Rops c Hc inc n (mkjet fr gr hr) f V s T (m_data r) (start inc)) as (d & E & H) end.
    exists d. split; [exact E|]. destruct Hr as (Wr & _). eapply result_shows; [exact Wr|exact H|reflexivity| |].
    - intros i Hi. cbn [jg]. amounts. rewrite !cell_g by exact Hi. cbn [jg]. ring.
    - intros Ho i j Hi Hj. unfold hess. cbn [jh]. cbv zeta. amounts. rewrite !cell_h by (try apply order_not1; auto using pos_sym).
      cbn [jh jg]. rewrite (sym_of _ _ _ _ i j Hx Ho Hi Hj), (sym_of _ _ _ _ i j Hy Ho Hi Hj), (sym_of _ _ _ _ i j Hw Ho Hi Hj), (sym_of _ _ _ _ i j Hr Ho Hi Hj).
      destruct (is_zero daa && is_zero dab && is_zero dac && is_zero dbb && is_zero dbc && is_zero dcc) eqn:Z.
      + repeat (apply andb_prop in Z as (Z & ?)). repeat match goal with Q : is_zero _ = true |- _ => apply zero_number in Q; rewrite Q end. ring.
      + destruct (Nat.le_ge_cases i j); [rewrite Nat.min_l, Nat.max_r by assumption|rewrite Nat.min_r, Nat.max_l by assumption]; ring.
  Qed.
End Real.
(** ** Tagged zeros *)
Lemma kernels_zero {S} (O : Ops S) c inc this a b e f daa dab dac dbb dbc dcc (r : data S) :
  unary O c inc this a f CZero daa r = wr r 0 f /\ binary O c inc this a b f CZero CZero daa dab dbb r = wr r 0 f /\
  ternary O c inc this a b e f CZero CZero CZero daa dab dac dbb dbc dcc r = wr r 0 f.
Proof.
  unfold unary, binary, ternary. cbn [is_zero andb]. rewrite orb_true_r. destruct (wr r 0 f); repeat split.
Qed.
Lemma zero_tags {S} (O : Ops S) c n inc this a b e f daa dab dac dbb dbc dcc (r : dd S) fr gr hr : cfg_ok c -> shows c n r fr gr hr ->
  exists d, shows c n (mk (m_size r) d) f gr hr /\
    unary O c inc this a f CZero daa (m_data r) = Ok d /\ binary O c inc this a b f CZero CZero daa dab dbb (m_data r) = Ok d /\
    ternary O c inc this a b e f CZero CZero CZero daa dab dac dbb dbc dcc (m_data r) = Ok d.
Proof.
  intros Hc Hr. pose proof (shows_rep _ _ _ _ _ _ Hc Hr) as R. destruct (set_f_rep c n _ r f R) as (r' & E & R').
  unfold set_f in E. destruct (wr (m_data r) 0 f) as [d| | |] eqn:W; try discriminate. cbn [bind] in E. injection E as E. subst r'.
  exists d. split.
  - apply rep_shows in R'. apply rep_shows in R. destruct Hr as (W0 & F & G & H), R as (_ & _ & G' & H'), R' as (W1 & F1 & G1 & H1).
    split; [exact W1|]. split; [exact F1|]. split.
    + intros i Hi. rewrite (G1 i Hi). rewrite <- (G i Hi). symmetry. apply G', Hi.
    + intros Ho i j Hi Hj. rewrite (H1 Ho i j Hi Hj). rewrite <- (H Ho i j Hi Hj). symmetry. apply H'; assumption.
  - destruct (kernels_zero O c inc this a b e f daa dab dac dbb dbc dcc (m_data r)) as (-> & -> & ->). auto.
Qed.
