(** Properties C291-C295: remaining operations of the matrix class. *)
From Coq Require Import Ascii List Bool Lia Lra Reals Floats.SpecFloat.
From Verif Require Import Prelude Num MatModel MatProofs MatProofs4 MatModel2 MatSpec2 MatProofs6 MatExamples6.
Import ListNotations.
Open Scope nat_scope.

(** C291: Matrix(v0, v1, ...) and m << v0, v1, ... give the same matrix. *)
Theorem C291_values_refuted : exists M N (vs : list R), length vs = M * N /\ forall a, exists r,
  m_init Rnum M N a vs = Ok r /\ rd Rnum M N r 0 1 = Ok 2%R /\ rd Rnum M N (m_values Rnum vs) 0 1 = Ok 3%R.
Proof. exact values_differ. Qed.
Print Assumptions C291_values_refuted.
Theorem C291_vectors_partial : forall (T : num) M N (a : mem T) vs, length vs = M * N -> M = 1 \/ N = 1 ->
  exists r, m_init T M N a vs = Ok r /\ forall m n, m < M -> n < N -> rd T M N r m n = rd T M N (m_values T vs) m n.
Proof. exact values_same. Qed.
Print Assumptions C291_vectors_partial.
Theorem C291_columns_partial : forall (T : num) M N (vs : list T) m n, m < M -> n < N ->
  rd T M N (m_values T vs) m n = Ok (nth (M * n + m) vs (nofZ T 0)).
Proof. exact values_rd. Qed.
Print Assumptions C291_columns_partial.
Example C291_ex : rd Dnum 2 1 (m_values Dnum [dofZ 5; dofZ 7]) 1 0 = Ok (dofZ 7).
Proof. reflexivity. Qed.

(** C292 *)
Theorem C292_left_add : forall (T : num) M N c (a g : mem T),
  exists r, m_ladd T M N c a g = Ok r /\ forall m n, m < M -> n < N -> r (M * n + m) = nadd T c (a (M * n + m)).
Proof. exact (fun T => left_ok T (nadd T)). Qed.
Print Assumptions C292_left_add.
Theorem C292_left_sub : forall (T : num) M N c (a g : mem T),
  exists r, m_lsub T M N c a g = Ok r /\ forall m n, m < M -> n < N -> r (M * n + m) = nsub T c (a (M * n + m)).
Proof. exact (fun T => left_ok T (nsub T)). Qed.
Print Assumptions C292_left_sub.
Theorem C292_left_div : forall (T : num) M N c (a g : mem T),
  exists r, m_ldiv T M N c a g = Ok r /\ forall m n, m < M -> n < N -> r (M * n + m) = ndiv T c (a (M * n + m)).
Proof. exact (fun T => left_ok T (ndiv T)). Qed.
Print Assumptions C292_left_div.
Theorem C292_minus : forall (T : num) M N (a g : mem T),
  exists r, m_cneg T M N a g = Ok r /\ forall m n, m < M -> n < N -> r (M * n + m) = nsub T (nofZ T 0) (a (M * n + m)).
Proof. exact cneg_ok. Qed.
Print Assumptions C292_minus.
Theorem C292_add_to : forall (T : num) M N (a b g : mem T),
  exists r, m_addto T M N a b g = Ok r /\ forall m n, m < M -> n < N -> r (M * n + m) = nadd T (a (M * n + m)) (b (M * n + m)).
Proof. exact addto_ok. Qed.
Print Assumptions C292_add_to.
Theorem C292_subtract_from : forall (T : num) M N (a b g : mem T),
  exists r, m_subfrom T M N a b g = Ok r /\ forall m n, m < M -> n < N -> r (M * n + m) = nsub T (a (M * n + m)) (b (M * n + m)).
Proof. exact subfrom_ok. Qed.
Print Assumptions C292_subtract_from.
Example C292_ex : match m_lsub Dnum 2 2 (dofZ 10) (m_values Dnum [dofZ 1; dofZ 2; dofZ 3; dofZ 4]) (fun _ => dnan) with
  | Ok r => map r (seq 0 4) = [dofZ 9; dofZ 8; dofZ 7; dofZ 6] | _ => False end.
Proof. vm_compute. reflexivity. Qed.

(** C293 *)
Theorem C293_vector2 : forall (T : num) x y (g : mem T),
  exists r, m_vector2 T x y g = Ok r /\ rd T 2 1 r 0 0 = Ok x /\ rd T 2 1 r 1 0 = Ok y.
Proof. exact vector2_ok. Qed.
Print Assumptions C293_vector2.
Theorem C293_vector3 : forall (T : num) x y z (g : mem T), exists r, m_vector3 T x y z g = Ok r /\
  rd T 3 1 r 0 0 = Ok x /\ rd T 3 1 r 1 0 = Ok y /\ rd T 3 1 r 2 0 = Ok z.
Proof. exact vector3_ok. Qed.
Print Assumptions C293_vector3.
(** With an infinite value the other elements are not numbers. *)
Theorem C293_diag_refuted : exists v : Dnum, v <> S754_nan /\ forall g g', exists r, m_diag Dnum 2 2 v g g' = Ok r /\ r 1 = S754_nan.
Proof. exact diag_inf. Qed.
Print Assumptions C293_diag_refuted.
Theorem C293_diag_partial : forall M N v (g g' : mem Rnum), exists r, m_diag Rnum M N v g g' = Ok r /\
  forall m n, m < M -> n < N -> r (M * n + m) = if m =? n then v else 0%R.
Proof. exact diag_R. Qed.
Print Assumptions C293_diag_partial.
Theorem C293_diag_zero_partial : forall M N (v : Dnum) (g g' : mem Dnum),
  match v with S754_zero _ | S754_finite _ _ _ => True | _ => False end ->
  exists r, m_diag Dnum M N v g g' = Ok r /\
  forall m n, m < M -> n < N -> m <> n -> exists s, r (M * n + m) = S754_zero s.
Proof. exact diag_D. Qed.
Print Assumptions C293_diag_zero_partial.
Example C293_ex : match m_diag Dnum 2 2 (dofZ 3) (fun _ => dnan) (fun _ => dnan) with
  | Ok r => map r (seq 0 4) = [dofZ 3; dofZ 0; dofZ 0; dofZ 3] | _ => False end.
Proof. vm_compute. reflexivity. Qed.

(** C294 *)
Theorem C294_column : forall (T : num) M N (a : mem T) n, n < N ->
  m_colvec T M N a n = Ok (map (fun m => a (M * n + m)) (seq 0 M)).
Proof. exact colvec_ok. Qed.
Print Assumptions C294_column.
Theorem C294_row : forall (T : num) M N (a : mem T) m, m < M ->
  m_rowvec T M N a m = Ok (map (fun n => a (M * n + m)) (seq 0 N)).
Proof. exact rowvec_ok. Qed.
Print Assumptions C294_row.
Theorem C294_column_out : forall (T : num) M N (a : mem T) n, 0 < M -> N <= n -> m_colvec T M N a n = Fault.
Proof. exact colvec_out. Qed.
Print Assumptions C294_column_out.
Theorem C294_row_out : forall (T : num) M N (a : mem T) m, 0 < N -> M <= m -> m_rowvec T M N a m = Fault.
Proof. exact rowvec_out. Qed.
Print Assumptions C294_row_out.
Theorem C294_set_then_get : forall (T : num) M N (a : mem T) n col, n < N -> length col = M ->
  exists r, m_setcol_vec T M N a n col = Ok r /\ m_colvec T M N r n = Ok col.
Proof. exact get_set. Qed.
Print Assumptions C294_set_then_get.
Theorem C294_get_then_set : forall (T : num) M N (a : mem T) n, n < N ->
  exists col r, m_colvec T M N a n = Ok col /\ m_setcol_vec T M N a n col = Ok r /\
    forall m n', m < M -> n' < N -> r (M * n' + m) = a (M * n' + m).
Proof. exact set_get. Qed.
Print Assumptions C294_get_then_set.
Example C294_ex : m_rowvec Dnum 2 2 (m_values Dnum [dofZ 1; dofZ 2; dofZ 3; dofZ 4]) 0 = Ok [dofZ 1; dofZ 3].
Proof. reflexivity. Qed.

(** C295: the printed text contains the elements, column by column. *)
Theorem C295_printed : forall (T : num) show M N (a : mem T), (forall x, word (show x)) ->
  words (m_print T show M N a) = map (fun i => show (a i)) (seq 0 (M * N)).
Proof. exact print_words. Qed.
Print Assumptions C295_printed.
Example C295_ex : m_print Dnum (fun x => if neqb Dnum x (dofZ 0) then ["0"%char] else ["1"%char]) 2 2
    (m_values Dnum [dofZ 1; dofZ 0; dofZ 0; dofZ 1])
  = ["["; " "; "["; "1"; " "; "0"; "]"; "'"; " "; "["; "0"; " "; "1"; "]"; "'"; " "; "]"]%char.
Proof. vm_compute. reflexivity. Qed.
