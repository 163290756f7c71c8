
(** Tests transcribed by hand. *)
(* test.cpp:421-436 Dot, 438-477 Cross, 479-493 Norm (Eigen: sums of products, left to right) *)
Definition c3 : cfg := {| c_ord := 2; c_tsize := 3; c_exc := true; c_dbg := true |}.
Definition v1 := num c3 dd1. Definition v2 := num c3 dd2. Definition v3 := num c3 dd3.
Definition sum3 (a b d : res (dd b64)) : res (dd b64) :=
  bind a (fun a => bind b (fun b => bind d (fun d => bind (add F c3 a b) (fun s => add F c3 s d)))).
Definition det (a b d e : dd b64) : res (dd b64) :=
  bind (mul F c3 a e) (fun x => bind (mul F c3 b d) (fun y => sub F c3 x y)).
Definition tenths (l : list Z) : list b64 := map (fun z => b64_div (b64_of_Z z) (b64_of_Z 100)) l.
Example test_dot : agrees c3 (sum3 (mul F c3 v1 v3) (mul F c3 v2 v1) (mul F c3 v3 v2))
  (tenths [1410; 2810; 3470; 1860; 3890; 10290; 8160; 6430; 5940; 4590]) = true.
Proof. vm_compute. reflexivity. Qed.
Example test_cross : agrees c3 (det v2 v3 v1 v2) (tenths [1510; 5540; 380; -180; 14430; 7300; 1000; 6260; 3170; 2000]) = true /\
  agrees c3 (det v3 v1 v2 v3) (tenths [-1191; -2494; -2652; -1588; -3168; -8642; -6942; -4548; -4632; -4092]) = true /\
  agrees c3 (det v1 v2 v3 v1) (tenths [780; 350; 3250; 2320; -320; 3110; 5640; 7810; 8590; 7910]) = true.
Proof. vm_compute. repeat split. Qed.
Example test_norm : agrees c3 (bind (sum3 (mul F c3 v1 v1) (mul F c3 v2 v2) (mul F c3 v3 v3)) (apply_u F c3 Usqrt))
  (map (fun z => b64_div (b64_of_Z z) (b64_of_Z 10000000000))
    [50089919145; 61948592710; 44400151526; 24076700873; 71438962617; 65451754620; 48662132130; 119876946237; 109103606599; 92320222392]) = true.
Proof. vm_compute. reflexivity. Qed.

Notation d2 := (pycfg false 1 2). Notation e2 := (pycfg false 2 2). Notation dx := (pycfg false 1 (-1)). Notation ex := (pycfg false 2 (-1)).
(* test_DDScalar.py:92-128 *)
Example test_init_by_value :
  constant_n Zops d2 1 2 = Ok (mk 2 (full [1; 0; 0])) /\ constant_n Zops e2 1 2 = Ok (mk 2 (full [1; 0; 0; 0; 0; 0])) /\
  constant_n Zops dx 1 2 = Ok (mk 2 (full [1; 0; 0])) /\ constant_n Zops ex 1 2 = Ok (mk 2 (full [1; 0; 0; 0; 0; 0])) /\
  constant_n Zops d2 1 3 = Throw InvalidSize /\ constant_n Zops e2 1 3 = Throw InvalidSize /\
  constant Zops dx 1 = Ok (mk 0 (full [1])) /\ constant Zops ex 1 = Ok (mk 0 (full [1])).
Proof. vm_compute. repeat split. Qed.
(* 131-166 *)
Example test_init_by_data :
  create d2 (full [1; 2; 3]) = Ok (mk 2 (full [1; 2; 3])) /\ create e2 (full [1; 2; 3; 4; 5; 6]) = Ok (mk 2 (full [1; 2; 3; 4; 5; 6])) /\
  create dx (full [1; 2; 3]) = Ok (mk 2 (full [1; 2; 3])) /\ create ex (full [1; 2; 3; 4; 5; 6]) = Ok (mk 2 (full [1; 2; 3; 4; 5; 6])) /\
  create ex (full [1; 2; 3; 4; 5]) = Throw InvalidLength.
Proof. vm_compute. repeat split. Qed.
(* 169-246 *)
Example test_empty_zero :
  size d2 (empty Zops d2) = 2 /\ size e2 (empty Zops e2) = 2 /\ empty_n Zops d2 3 = Throw InvalidSize /\ empty_n Zops e2 3 = Throw InvalidSize /\
  size dx (empty Zops dx) = 0 /\ size ex (empty Zops ex) = 0 /\ (exists r, empty_n Zops dx 2 = Ok r /\ size dx r = 2) /\
  zero Zops d2 = mk 2 (full [0; 0; 0]) /\ zero Zops e2 = mk 2 (full [0; 0; 0; 0; 0; 0]) /\ zero_n Zops d2 2 = Ok (zero Zops d2) /\
  zero_n Zops d2 3 = Throw InvalidSize /\ zero_n Zops e2 3 = Throw InvalidSize /\ size dx (zero Zops dx) = 0 /\ size ex (zero Zops ex) = 0 /\
  (exists r, zero_n Zops ex 2 = Ok r /\ size ex r = 2).
Proof. vm_compute. repeat split; eexists; split; reflexivity. Qed.
(* 297-372 *)
Example test_variable :
  variable Zops d2 1 35 = Ok (mk 2 (full [35; 0; 1])) /\ variable Zops e2 1 35 = Ok (mk 2 (full [35; 0; 1; 0; 0; 0])) /\
  variable_n Zops d2 1 35 3 = Throw InvalidSize /\ variable_n Zops dx 1 35 2 = Ok (mk 2 (full [35; 0; 1])) /\
  variable_n Zops ex 1 35 2 = Ok (mk 2 (full [35; 0; 1; 0; 0; 0])) /\
  variables Zops d2 [3; 5] = Ok [mk 2 (full [3; 1; 0]); mk 2 (full [5; 0; 1])] /\
  variables Zops ex [3; 5] = Ok [mk 2 (full [3; 1; 0; 0; 0; 0]); mk 2 (full [5; 0; 1; 0; 0; 0])].
Proof. vm_compute. repeat split. Qed.
(* 378-466 *)
Example test_values :
  let u := mk 2 (full [1; 2; 3; 4; 5; 6]) in
  from_arrays Zops ex 1 (full [2; 3]) (mkmat 2 2 (full [4; 5; 5; 6])) = Ok u /\
  get_f u = Ok 1 /\ get_g e2 u 0 = Ok 2 /\ get_g e2 u 1 = Ok 3 /\ get_h e2 u 0 0 = Ok 4 /\ get_h e2 u 0 1 = Ok 5 /\ get_h e2 u 1 0 = Ok 5 /\
  get_h e2 u 1 1 = Ok 6 /\ set_h e2 u 1 0 2 = Ok (mk 2 (full [1; 2; 3; 4; 2; 6])) /\
  get_ag e2 u = Ok [2; 3] /\ hm Zops e2 u "full" = Ok (mkmat 2 2 (full [4; 5; 5; 6])) /\ hm Zops e2 u "zeros" = Ok (mkmat 2 2 (full [4; 5; 0; 6])) /\
  set_hm e2 u (mkmat 2 2 (full [3; 2; 0; 1])) = Ok (mk 2 (full [1; 2; 3; 3; 2; 1])).
Proof. vm_compute. repeat split. Qed.
(* 483-520 *)
Example test_eval : match eval F {| c_ord := 2; c_tsize := -1; c_exc := true; c_dbg := false |}
  (mk 3 (full (map b64_of_Z [1; 2; 3; 4; 5; 6; 7; 8; 9; 10]))) (map b64_of_Z [11; 12; 13]) with Ok v => Beqb v (fl 10063 (-1)) | _ => false end = true.
Proof. vm_compute. reflexivity. Qed.
Example test_pad :
  pad_right Zops ex (mk 2 (full [1; 2; 3; 4; 5; 6])) 5 = Ok (mk 5 (full [1; 2; 3; 0; 0; 0; 4; 5; 0; 0; 0; 6; 0; 0; 0; 0; 0; 0; 0; 0; 0])) /\
  pad_left Zops ex (mk 2 (full [1; 2; 3; 4; 5; 6])) 5 = Ok (mk 5 (full [1; 0; 0; 0; 2; 3; 0; 0; 0; 0; 0; 0; 0; 0; 0; 0; 0; 0; 4; 5; 6])) /\
  pad_right Zops dx (mk 2 (full [1; 2; 3])) 5 = Ok (mk 5 (full [1; 2; 3; 0; 0; 0])) /\
  pad_left Zops dx (mk 2 (full [1; 2; 3])) 5 = Ok (mk 5 (full [1; 0; 0; 0; 2; 3])).
Proof. vm_compute. repeat split. Qed.
(* test_SScalar.py:18-41; test.cpp:499-545 *)
Example test_sscalar : let x := mks (fl 3 (-1)) [("x"%string, fl 2 0); ("y"%string, fl 1 0)] in
  (s_size x =? 2) && Beqb (s_get_f x) (fl 3 (-1)) && Beqb (s_get_d F x "x") (fl 2 0) && Beqb (s_get_d F x "z") (fl 0 0) &&
  (s_size (s_constant (fl 3 (-1))) =? 0) && (s_size (s_variable F "x" (fl 3 (-1))) =? 1) &&
  Beqb (s_get_d F (s_variable F "x" (fl 3 (-1))) "x") (fl 1 0) && Beqb (s_get_d F (s_variable F "x" (fl 3 (-1))) "y") (fl 0 0) &&
  (let r := s_add F (s_variable F "x" (fl 1 0)) (s_unary_op F (sk_pow F (fl 2 0)) (s_variable F "y" (fl 1 0))) in
  (s_size r =? 2) && close (s_get_f r) (fl 2 0) && close (s_get_d F r "x") (fl 1 0) && close (s_get_d F r "y") (fl 2 0)) = true.
Proof. vm_compute. reflexivity. Qed.
