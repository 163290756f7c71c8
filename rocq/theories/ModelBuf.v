(** Raw access to the storage as an Eigen vector. *)
From Coq Require Import ZArith List Bool.
From Verif Require Import Outcome Scalar Model.
Import ListNotations.
Open Scope Z_scope.
Open Scope res_scope.

Section Buf.
  Context {S : Type}.
  (** 870-873 [adata()]: all stored scalars in storage order (here: what reading every entry of the view gives). *)
  Fixpoint read_all (d : data S) : res (list S) :=
    match d with
    | [] => Ok []
    | Some v :: d => vs <- read_all d ;; Ok (v :: vs)
    | None :: _ => UB
    end.
  Definition adata (x : dd S) : res (list S) := read_all (m_data x).
  (** 875-878 [set_adata(value)]: assignment through a map of [length(m_data)] entries; a length
      mismatch is an Eigen assertion, treated as UB here (as in [set_ag]). *)
  Definition set_adata (x : dd S) (v : data S) : res (dd S) :=
    if negb (len v =? len (m_data x)) then UB else
    d <- for_ 0 (len (m_data x)) (fun i d => s <- rd v i ;; wr d i s) (m_data x) ;;
    Ok (mk (m_size x) d).
End Buf.
