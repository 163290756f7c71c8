(** C73: derivatives held at the end of sessions with sparse numbers. *)
From Coq Require Import ZArith List Bool String Reals Lra Lia.
From Coquelicot Require Import Coquelicot.
From Verif Require Import Outcome Scalar Model Spec ArrSpec Core Kernels OpsRep AccRep PadRep RealOps Deriv UDeriv BDeriv
  FactsLayout FactsCtor FactsOps ExprSpec Expr Struct FactsExpr Chain FactsReal Cont ProgSpec Prog FactsProg
  ModelS SpecS FactsS FactsSReal ModelObj ModelObjS SessSpec.
Import ListNotations.

(** ** The float session does not see the derivatives (any scalars: names only) *)
Lemma rev_below n (e : expr R) (p q : nat -> R) : vars_below n e -> (forall i, (i < n)%nat -> p i = q i) -> rev e p = rev e q.
Proof.
  intros V H. induction e; cbn in *; [apply H, V|reflexivity|rewrite IHe by exact V; reflexivity| |].
  - rewrite IHe1, IHe2 by tauto. reflexivity.
  - rewrite IHe1, IHe2, IHe3 by tauto. reflexivity.
Qed.

Section Sess.
  Context (l : list string) (p : string -> R) (ND : NoDup l).
  Let n := List.length l.
  Let nm : nat -> string := fun i => nth i l ""%string.
  Let at_ (q : string -> R) : nat -> R := fun i => q (nm i).
  Let env : nat -> jet R := fun i => jvar Rops i (at_ p i).

  Lemma nm_distinct : distinct n nm.
  Proof. intros i j Hi Hj E. apply (proj1 (NoDup_nth l ""%string) ND i j Hi Hj E). Qed.

  Definition gives (e : expr R) (x : ss R) : Prop := vars_below n e /\ dom e (at_ p) /\ shadow n nm (jev Rops env e) x.
  Record ready (es : list (expr R)) (v : zheap R) : Prop := {
    R_objs : Forall2 gives es (zobjs v);
    R_names : forall r o, znames v r = Some o -> (o < List.length es)%nat }.
  Definition float (es : list (expr R)) (v : zheap R) (q : string -> R) : fheap := mkf (vals es (at_ q)) (znames v).

  Lemma shadow_jeq J K x : jeq 2 n J K -> shadow n nm K x -> shadow n nm J x.
  Proof. intros (Q0 & Q1 & _) (A & B & C). split; [exact A|]. split; [rewrite B; symmetry; exact Q0|]. intros i Hi. rewrite C, Q1 by exact Hi. reflexivity. Qed.
  Lemma gives_intro e x J : vars_below n e -> dom e (at_ p) -> jeq 2 n (jev Rops env e) J -> shadow n nm J x -> gives e x.
  Proof. intros V D Q R. split; [exact V|]. split; [exact D|]. eapply shadow_jeq; eassumption. Qed.

  Lemma ready_obj es v r : ready es v ->
    match zget v r with
    | Some (o, x) => exists e, znames v r = Some o /\ nth_error es o = Some e /\ nth_error (zobjs v) o = Some x /\ gives e x
    | None => znames v r = None
    end.
  Proof.
    intros [V N]. unfold zget. destruct (znames v r) as [o|] eqn:Hr; [|reflexivity].
    pose proof (N _ _ Hr) as L. destruct (nth_error es o) as [e|] eqn:E; [|apply nth_error_None in E; lia].
    destruct (nth_error (zobjs v) o) as [x|] eqn:X; [|apply nth_error_None in X; rewrite <- (Forall2_len _ _ _ V) in X; lia].
    exists e. split; [reflexivity|]. split; [exact E|]. split; [exact X|].
    assert (G : forall l l' k, Forall2 gives l l' -> nth_error l k = Some e -> nth_error l' k = Some x -> gives e x).
    { intros a b k F. revert k. induction F; intros [|k] A B; try discriminate; cbn in A, B; [congruence|eauto]. }
    eapply G; eauto.
  Qed.

  Definition okstep (es : list (expr R)) (v : zheap R) (s : zstmt R) (v' : zheap R) : Prop :=
    exists es', ready es' v' /\ (forall q, zfstep q s (float es v q) = float es' v' q).
  Lemma ok_same es v s : ready es v -> (forall q, zfstep q s (float es v q) = float es v q) -> okstep es v s v.
  Proof. intros H Q. exists es. auto. Qed.
  Lemma ok_new es v s r e x : ready es v -> gives e x ->
    (forall q, zfstep q s (float es v q) = fnew (float es v q) r (Some (rev e (at_ q)))) -> okstep es v s (znew v r x).
  Proof.
    intros [V N] G Q. pose proof (Forall2_len _ _ _ V) as L. exists (es ++ [e]). split; [split; cbn|].
    - apply Forall2_app; [exact V|]. constructor; [exact G|constructor].
    - intros k o. rewrite app_length. cbn. unfold bind_name. destruct (Nat.eqb k r); [intros E; injection E as <-; lia|].
      intros E. specialize (N _ _ E). lia.
    - intros q. rewrite Q. unfold float, fnew. cbn. unfold vals. rewrite map_app, map_length, L. reflexivity.
  Qed.
  Lemma ok_put es v s r o e x : ready es v -> znames v r = Some o -> gives e x ->
    (forall q, zfstep q s (float es v q) = fset (float es v q) r (Some (rev e (at_ q)))) -> okstep es v s (zput v o x).
  Proof.
    intros [V N] Hr G Q. exists (put es o e). split.
    - split; cbn; rewrite ?put_length; try assumption. apply put_Forall2; assumption.
    - intros q. rewrite Q. unfold fset, float. cbn. rewrite Hr. unfold vals. rewrite put_map. reflexivity.
  Qed.

  Lemma assign_gives op e1 e2 x y (same : bool) : gives e1 x -> gives e2 y -> (same = true -> e1 = e2 /\ x = y) ->
    (op = Amul \/ op = Adiv -> same = false) -> (op = Adiv -> rev e2 (at_ p) <> 0%R) ->
    gives (EB (match op with Aadd => Badd | Asub => Bsub | Amul => Bmul | Adiv => Bdiv end) e1 e2)
      (s_assign Rops op x (if same then None else Some y)).
  Proof.
    intros (V1 & D1 & R1) (V2 & D2 & R2) SM AM AD.
    set (J1 := jev Rops env e1) in *. set (J2 := jev Rops env e2) in *.
    set (es := [e1; e2]). set (js := [J1; J2]).
    set (a := if same then 0%nat else 1%nat).
    assert (La : (a < List.length js)%nat) by (subst a js; cbn; destruct same; lia).
    assert (HH : FactsProg.holds n env es js) by (constructor; [apply jeq_refl|constructor; [apply jeq_refl|constructor]]).
    assert (GG : FactsProg.good n (at_ p) es) by (split; repeat constructor; assumption).
    assert (EA : ereg es a = e2) by (subst a es; destruct same; cbn; [apply SM|]; reflexivity).
    assert (SF : safe_step (PAsg op 0 a) (vals es (at_ p))).
    { cbn [safe_step]. destruct op; auto.
      - subst a. rewrite AM by auto. intros Q; discriminate Q.
      - unfold vals. rewrite reg_map by exact La. fold (ereg es a). rewrite EA. auto. }
    assert (B : regs_below (List.length es) (PAsg (S:=R) op 0 a)) by (split; [subst es; cbn; lia|exact La]).
    pose proof (sstep_good n (at_ p) _ es GG B SF) as (W1 & W2).
    pose proof (sstep_holds n (at_ p) env _ es js ltac:(reflexivity) GG B SF HH) as HS.
    unfold sstep in W1, W2, HS. cbn [assigned] in W1, W2, HS. rewrite EA in W1, W2, HS.
    subst es. cbn in W1, W2. apply Forall_inv in W1. apply Forall_inv in W2.
    cbn [jstep] in HS. cbn [put] in HS. inversion HS; subst. eapply gives_intro; [exact W1|exact W2|eassumption|].
    subst a js. destruct same; cbn [Nat.eqb nth jreg].
    - apply sh_assign_self; [|exact R1]. destruct op; auto; discriminate AM; auto.
    - apply sh_assign; assumption.
  Qed.
  Lemma assign_s_gives op e x k : gives e x -> (op = Adiv -> k <> 0%R) ->
    gives (EU (match op with Aadd => Uadds k | Asub => Usubs k | Amul => Umuls k | Adiv => Udivs k end) e) (s_assign_s Rops op x k).
  Proof.
    intros (V & D & R) NZ. split; [exact V|]. split; [destruct op; cbn; auto|].
    pose proof (sh_assign_s n nm op _ x k R) as T. destruct op; exact T.
  Qed.
  Lemma u_gives u e x : gives e x -> udom u (rev e (at_ p)) -> gives (EU u e) (s_apply_u Rops u x).
  Proof. intros (V & D & R) U. split; [exact V|]. split; [split; assumption|]. apply (sh_u n nm u _ x R). Qed.
  Lemma b_gives b e1 e2 x y : gives e1 x -> gives e2 y -> bdom b (rev e1 (at_ p)) (rev e2 (at_ p)) -> gives (EB b e1 e2) (s_apply_b Rops b x y).
  Proof.
    intros (V & D & R) (V' & D' & R') U. split; [split; assumption|]. split; [split; [|split]; assumption|].
    apply (sh_b n nm b _ _ x y R R').
  Qed.
  Lemma h_gives e1 e2 e3 x y z : gives e1 x -> gives e2 y -> gives e3 z -> hdom (rev e1 (at_ p)) (rev e2 (at_ p)) (rev e3 (at_ p)) ->
    gives (EH e1 e2 e3) (s_hypot3 Rops x y z).
  Proof.
    intros (V & D & R) (V' & D' & R') (V2 & D2 & R2) U. split; [cbn; tauto|]. split; [cbn; tauto|].
    apply (sh_h n nm _ _ _ x y z R R' R2).
  Qed.

  Ltac fl := unfold fget, float, vals; cbn [fnames cells]; rewrite ?nth_error_map.
  Ltac fstp := intros; cbn [zfstep]; fl; repeat match goal with H : znames _ _ = _ |- _ => rewrite H end; cbn; rewrite ?nth_error_map;
               repeat match goal with H : nth_error _ _ = _ |- _ => rewrite H end; cbn; try reflexivity.
  Ltac obj a RD := let T := fresh "T" in pose proof (ready_obj _ _ a RD) as T; destruct (zget _ a) as [[? ?]|];
    [destruct T as (? & ? & ? & ? & ?)|].

  Definition listed (s : zstmt R) : Prop := match s with ZVar _ k _ => In k l | _ => True end.
  Lemma zstep_ok es v s : ready es v -> zarithmetic p s -> listed s -> zfsafe s (float es v p) -> okstep es v s (snd (zstep Rops s v)).
  Proof.
    intros RD AR LI SF. destruct s; cbn [zarithmetic listed zstep snd] in *; try contradiction.
    - eapply ok_new with (e := EConst v0); [exact RD| |reflexivity]. split; [exact I|]. split; [exact I|]. apply sh_const.
    - destruct (In_nth l k ""%string LI) as (i & Hi & E). subst v0 k.
      eapply ok_new with (e := EVar i); [exact RD| |reflexivity]. split; [exact Hi|]. split; [exact I|].
      apply (sh_var n nm i (p (nm i)) nm_distinct Hi).
    - obj a RD; cbn [snd]; [|apply ok_same; [exact RD|fstp]]. exists es. split.
      + destruct RD as [V N]. split; cbn; [exact V|]. intros k o'. unfold bind_name. destruct (Nat.eqb k r); [|apply N].
        intros Q. injection Q as <-. eapply N; eassumption.
      + fstp.
    - obj a RD; cbn [snd]; [|apply ok_same; [exact RD|fstp]].
      eapply ok_new with (e := EU u _); [exact RD|apply u_gives; [eassumption|apply SF; fstp]|fstp].
    - obj a1 RD; cbn [snd]; [|apply ok_same; [exact RD|fstp]]. obj a2 RD; cbn [snd]; [|apply ok_same; [exact RD|fstp]].
      eapply ok_new with (e := EB b _ _); [exact RD|apply b_gives; [eassumption|eassumption|apply SF; fstp]|fstp].
    - obj a1 RD; cbn [snd]; [|apply ok_same; [exact RD|fstp]]. obj a2 RD; cbn [snd]; [|apply ok_same; [exact RD|fstp]].
      obj a3 RD; cbn [snd]; [|apply ok_same; [exact RD|fstp]].
      eapply ok_new with (e := EH _ _ _); [exact RD|apply h_gives; [eassumption|eassumption|eassumption|apply SF; fstp]|fstp].
    - obj a RD; cbn [snd].
      2:{ apply ok_same; [exact RD|]. intros q. cbn [zfstep]. unfold fset. fl. rewrite T. destruct (znames v r) as [o'|]; cbn; [|reflexivity].
          unfold lift2. destruct (nth_error _ o'); reflexivity. }
      obj r RD; cbn [snd].
      2:{ apply ok_same; [exact RD|]. intros q. cbn [zfstep]. unfold fset. cbn. rewrite T. reflexivity. }
      eapply ok_put; [exact RD|eassumption| |].
      + eapply assign_gives; [eassumption|eassumption| | |].
        * destruct (Nat.eqb_spec n0 n1) as [<-|N]; [|discriminate]. intros _. split; congruence.
        * intros OP. apply Nat.eqb_neq. intros <-. destruct OP as [-> | ->]; cbn in SF; [|destruct SF as (_ & SF)]; eapply SF; eassumption.
        * intros ->. cbn in SF. intros Z. apply SF. fstp. f_equal. exact Z.
      + fstp. unfold fset. cbn. rewrite H3. destruct o; reflexivity.
    - obj r RD; cbn [snd].
      2:{ apply ok_same; [exact RD|]. intros q. destruct o; fstp; unfold fset; cbn; rewrite ?T; reflexivity. }
      destruct o.
      + eapply ok_new with (e := EU (Uadds v0) _); [exact RD|apply u_gives; [eassumption|exact I]|fstp].
      + eapply ok_new with (e := EU (Usubs v0) _); [exact RD|apply u_gives; [eassumption|exact I]|fstp].
      + eapply ok_put; [exact RD|eassumption|apply (assign_s_gives Amul); [eassumption|discriminate]|fstp].
      + eapply ok_put; [exact RD|eassumption|apply (assign_s_gives Adiv); [eassumption|intros _; exact SF]|fstp].
  Qed.

  Lemma zsession_ok w : forall es v, ready es v -> List.Forall (zarithmetic p) w -> List.Forall listed w -> zfsafe_session p w (float es v p) ->
    exists es', ready es' (zsession Rops w v) /\ (forall q, zfsession q w (float es v q) = float es' (zsession Rops w v) q).
  Proof.
    induction w as [|s w IH]; intros es v RD AR LI SF.
    - exists es. auto.
    - cbn [zfsafe_session] in SF. destruct SF as (SF & SW). inversion AR; subst. inversion LI; subst.
      destruct (zstep_ok es v s RD ltac:(assumption) ltac:(assumption) SF) as (es1 & RD1 & Q).
      rewrite Q in SW. destruct (IH es1 _ RD1 ltac:(assumption) ltac:(assumption) SW) as (es' & RD' & QW).
      exists es'. split; [exact RD'|]. intros q. cbn [zfsession zsession]. rewrite Q. apply QW.
  Qed.
  Lemma ready_start : ready [] zstart.
  Proof. split; cbn; [constructor|discriminate]. Qed.

  Lemma named w : List.Forall (zarithmetic p) w -> List.Forall listed w -> zfsafe_session p w fstart ->
    (forall r, znames (zsession Rops w zstart) r = fnames (zfsession p w fstart) r) /\
    forall r o, znames (zsession Rops w zstart) r = Some o -> exists x, nth_error (zobjs (zsession Rops w zstart)) o = Some x /\
      keys_ok x /\ s_get_f x = zsession_value w r p /\
      forall k, In k l -> named_partial (zsession_value w r) k p (s_get_d Rops x k).
  Proof.
    intros AR LI SF. destruct (zsession_ok w [] zstart ready_start AR LI SF) as (es & RD & Q).
    assert (FS : forall q, zfsession q w fstart = float es (zsession Rops w zstart) q) by (intros q; rewrite <- Q; reflexivity).
    split; [intros r; rewrite FS; reflexivity|]. set (v := zsession Rops w zstart) in *.
    intros r o Hr. pose proof (ready_obj es v r RD) as T. unfold zget in T. rewrite Hr in T.
    destruct (nth_error (zobjs v) o) as [x|] eqn:X; [|congruence]. destruct T as (e & _ & E & _ & G).
    assert (HF : forall q, rev e (at_ q) = zsession_value w r q).
    { intros q. unfold zsession_value. rewrite FS. unfold fget, float. cbn. rewrite Hr. unfold vals. rewrite nth_error_map, E. reflexivity. }
    destruct G as (V & D & (K & F & GG)). destruct (point_derivs n e (at_ p) V D) as (P0 & P1 & P2).
    exists x. split; [reflexivity|]. split; [exact K|]. split; [unfold s_get_f; rewrite F; fold env in P0; rewrite P0; apply HF|].
    intros k Hk. destruct (In_nth l k ""%string Hk) as (i & Hi & Ek). change (nm i = k) in Ek. subst k.
    change (s_get_d Rops x (nm i)) with (gd x (nm i)). rewrite (GG i Hi). specialize (P1 i Hi). unfold partial in P1. unfold named_partial.
    eapply is_derive_ext; [|exact P1]. intros t. cbn beta. rewrite <- HF. apply (rev_below n); [exact V|].
    intros j Hj. unfold set_at, at_. destruct (Nat.eqb_spec j i) as [->|Nj]; [rewrite String.eqb_refl; reflexivity|].
    destruct (String.eqb_spec (nm j) (nm i)) as [Enm|]; [|reflexivity]. exfalso. apply Nj. apply nm_distinct; assumption.
  Qed.
End Sess.

Definition created (w : list (zstmt R)) : list string := flat_map (fun s => match s with ZVar _ k _ => [k] | _ => [] end) w.
Lemma sparse_session p w : List.Forall (zarithmetic p) w -> zfsafe_session p w fstart ->
  let st := zsession Rops w zstart in
  (forall r, znames st r = fnames (zfsession p w fstart) r) /\
  forall r o, znames st r = Some o -> exists x, nth_error (zobjs st) o = Some x /\ keys_ok x /\
    s_get_f x = zsession_value w r p /\ forall k, named_partial (zsession_value w r) k p (s_get_d Rops x k).
Proof.
  intros AR SF st.
  assert (HL : forall k, let l := nodup String.string_dec (k :: created w) in NoDup l /\ List.Forall (listed l) w /\ In k l).
  { intros k l. split; [apply NoDup_nodup|]. split; [|apply nodup_In; left; reflexivity].
    apply List.Forall_forall. intros s Hs. destruct s; cbn [listed]; auto. apply nodup_In. right. apply in_flat_map. eexists. split; [exact Hs|]. left. reflexivity. }
  destruct (HL ""%string) as (N0 & L0 & _). destruct (named _ p N0 w AR L0 SF) as (A & B). split; [exact A|].
  intros r o Hr. destruct (B r o Hr) as (x & X & K & F & _). exists x. repeat (split; [assumption|]).
  intros k. destruct (HL k) as (N1 & L1 & I1). destruct (named _ p N1 w AR L1 SF) as (_ & B1).
  destruct (B1 r o Hr) as (x' & X' & _ & _ & G). fold st in X, X'. assert (x' = x) by congruence. subst x'. apply G, I1.
Qed.

(** A statement changes only the object it assigns to, and makes at most one new one. *)
Lemma sparse_frame {S} (O : Ops S) s (st : zheap S) o x : nth_error (zobjs st) o = Some x ->
  (forall op r a, s = ZAsg op r a -> znames st r <> Some o) -> (forall op r v, s = ZAsgS op r v -> znames st r <> Some o) ->
  nth_error (zobjs (snd (zstep O s st))) o = Some x.
Proof.
  intros X H1 H2. assert (NEW : forall r y, nth_error (zobjs (znew st r y)) o = Some x).
  { intros r y. cbn. rewrite nth_error_app1; [exact X|]. apply nth_error_Some. congruence. }
  assert (PUT : forall r o' x' y, zget st r = Some (o', x') -> znames st r <> Some o -> nth_error (zobjs (zput st o' y)) o = Some x).
  { intros r o' x' y G N. unfold zget in G. destruct (znames st r) as [o2|]; [|discriminate]. destruct (nth_error (zobjs st) o2); [|discriminate].
    injection G as <- <-. cbn. rewrite put_other by congruence. exact X. }
  destruct s; cbn [zstep]; cbv zeta;
    repeat match goal with |- context [match zget st ?a with _ => _ end] => destruct (zget st a) as [[? ?]|] eqn:?; cbn [snd] end;
    try exact X; try apply NEW.
  - eapply PUT; [eassumption|]. eapply H1. reflexivity.
  - destruct o0; try apply NEW; (eapply PUT; [eassumption|]; eapply H2; reflexivity).
Qed.

(** [x *= x] and [x /= x]. *)
Definition aliased_op (o : aop) : list (zstmt R) := [ZVar 0 "x" 2%R; ZAlias 1 0; ZAsg o 0 1].
Lemma aliased_op_wrong o : o = Amul \/ o = Adiv -> exists x l,
  List.Forall (zarithmetic (fun _ => 2%R)) (aliased_op o) /\
  nth_error (zobjs (zsession Rops (aliased_op o) zstart)) 0 = Some x /\ znames (zsession Rops (aliased_op o) zstart) 0%nat = Some 0%nat /\
  named_partial (zsession_value (aliased_op o) 0) "x" (fun _ => 2%R) l /\ s_get_d Rops x "x" <> l.
Proof.
  intros Ho. eexists _, (match o with Amul => 4%R | _ => 0%R end).
  split; [destruct o; repeat constructor|]. split; [destruct o; reflexivity|]. split; [destruct o; reflexivity|].
  destruct Ho as [-> | ->].
  - split.
    + unfold named_partial. eapply is_derive_ext with (f := fun t => (t * t)%R); [intros t; reflexivity|]. auto_derive; [exact I|]. ring.
    + lazy -[Rplus Rmult Rminus Ropp Rinv Rdiv IZR]. lra.
  - split.
    + unfold named_partial. eapply is_derive_ext with (f := fun t => (t / t)%R); [intros t; reflexivity|]. auto_derive; [lra|]. field.
    + unfold s_get_d. cbn. rewrite !Rpow_std_2. lra.
Qed.
