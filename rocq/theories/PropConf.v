(** Properties C71, C72, C124, C125 of the configuration files. *)
From Coq Require Import Ascii Reals.
From Flocq Require Import Core.
From Verif Require Import Prelude ConfModel ConfSpec ConfProofs ConfDouble.
Open Scope Z_scope.

Definition ex_saved : conf := [(["a"; "b"], VInt (-42)); (["c"], VArr 0 [1; -2; 2147483647]); (["s"], VStr ["x"; " "; "y"; "="])]%char.
Definition ex_vars : conf := [(["c"], VArr 7 [5; 5; 5]); (["z"], VInt 9); (["a"; "b"], VInt 0); (["s"], VStr [])]%char.

(** C71 *)
Theorem C71_saved_restored_partial : forall ps cs, good_conf ps -> NoDup (map fst cs) ->
  (forall n v w, In (n, v) cs -> In (n, w) ps -> same_type v w) ->
  exists cs', load (save ps) cs = (cs', Ok tt) /\ map fst cs' = map fst cs /\
    forall n v, In (n, v) cs -> (forall w, In (n, w) ps -> In (n, restored v w) cs') /\ ((forall w, ~ In (n, w) ps) -> In (n, v) cs').
Proof. exact save_load. Qed.
Print Assumptions C71_saved_restored_partial.
(** A line naming an unknown property has no effect, whatever follows the name. *)
Theorem C71_unknown_ignored : forall c l, ~ In (fst (parse_line l)) (map fst c) -> load_line c l = (c, Ok tt).
Proof. exact unknown_line. Qed.
Print Assumptions C71_unknown_ignored.
(** An array property without elements is saved, and loading the file fails. *)
Theorem C71_empty_array_refuted : exists ps, NoDup (map fst ps) /\ (forall n v, In (n, v) ps -> good_name n) /\ snd (load (save ps) ps) = Fault.
Proof.
  exact (ex_intro _ [(["a"%char], VArr 0 [])] empty_array).
Qed.
Print Assumptions C71_empty_array_refuted.
Example C71_example_good : good_conf ex_saved.
Proof.
  split; [repeat constructor; cbn; intuition discriminate|]. intros n v H.
  repeat destruct H as [H|H]; try (injection H as <- <-); try contradiction; (split; [split; [discriminate|cbn; intros c Hc; repeat destruct Hc as [<-|Hc]; try reflexivity; contradiction]|]); cbn; unfold int_range.
  - lia.
  - split; [discriminate|]. intros z Hz. repeat destruct Hz as [<-|Hz]; try lia; contradiction.
  - intuition discriminate.
Qed.
Example C71_example : load (save ex_saved) ex_vars =
  ([(["c"], VArr 7 [1; -2; 2147483647]); (["z"], VInt 9); (["a"; "b"], VInt (-42)); (["s"], VStr ["x"; " "; "y"; "="])]%char, Ok tt).
Proof. vm_compute. reflexivity. Qed.

(** C72 *)
Theorem C72_no_overrun_refuted : exists file c, snd (load file c) = UB.
Proof. exact (ex_intro _ (save [(["a"%char], VArr 0 [1; 2])]) (ex_intro _ [(["a"%char], VArr 0 [0])] eq_refl)). Qed.
Print Assumptions C72_no_overrun_refuted.
(** In fact whenever more elements were saved than the array has. *)
Theorem C72_longer_array : forall d l w, good_value (VArr d w) -> (length l < length w)%nat ->
  snd (read_value (VArr d l) (" "%char :: print_value (VArr d w))) = UB.
Proof. exact too_long. Qed.
Print Assumptions C72_longer_array.
Theorem C72_no_overrun_partial : forall file c, NoDup (map fst c) ->
  (forall l, In l (split newline file) -> forall d a, In (fst (parse_line l), VArr d a) c -> (length (split comma (snd (parse_line l))) <= length a)%nat) ->
  snd (load file c) <> UB /\ map (fun p => (fst p, shape (snd p))) (fst (load file c)) = map (fun p => (fst p, shape (snd p))) c.
Proof. exact load_safe. Qed.
Print Assumptions C72_no_overrun_partial.
(** Missing elements are filled with the default. *)
Example C72_example : load (save [(["a"%char], VArr 0 [1; 2])]) [(["a"%char], VArr 9 [5; 5; 5; 5])] = ([(["a"%char], VArr 9 [1; 2; 9; 9])], Ok tt).
Proof. reflexivity. Qed.

(** C124 *)
Theorem C124_duplicate : forall n v len c, In n (map fst c) -> NoDup (map fst c) -> conf_add n v len c = Fault.
Proof. exact add_twice. Qed.
Print Assumptions C124_duplicate.
Theorem C124_new : forall n v len c, ~ In n (map fst c) -> (forall d l, v = VArr d l -> len = length l) -> conf_add n v len c = Ok (c ++ [(n, v)]).
Proof. exact add_new. Qed.
Print Assumptions C124_new.
Theorem C124_length : forall n d l len c, len <> length l -> conf_add n (VArr d l) len c = Fault.
Proof. exact add_length. Qed.
Print Assumptions C124_length.
Theorem C124_invariant : forall n v len c c', NoDup (map fst c) -> conf_add n v len c = Ok c' -> NoDup (map fst c') /\ forall m w, In (m, w) c' <-> In (m, w) c \/ (m = n /\ w = v).
Proof. exact add_inv. Qed.
Print Assumptions C124_invariant.
Example C124_example : conf_add ["c"%char] (VArr 0 [1; 2]) 2 [] = Ok [(["c"%char], VArr 0 [1; 2])] /\ conf_add ["c"%char] (VInt 1) 0 ex_vars = Fault.
Proof. split; reflexivity. Qed.

(** C125 *)
Open Scope R_scope.
Theorem C125_double_refuted : exists x, is_double x /\ restored_double x <> x.
Proof. exact (ex_intro _ (bpow radix2 (-30)) double_changed). Qed.
Print Assumptions C125_double_refuted.
Theorem C125_element_refuted : exists x, is_double x /\ restored_elem x <> x.
Proof. exact (ex_intro _ 1234567 elem_changed). Qed.
Print Assumptions C125_element_refuted.
Theorem C125_double_integers_partial : forall z, (Z.abs z <= 2 ^ 53)%Z -> restored_double (IZR z) = IZR z.
Proof. exact double_int. Qed.
Print Assumptions C125_double_integers_partial.
Theorem C125_double_close_partial : forall x, Rabs x <= IZR (2 ^ 31) -> Rabs (restored_double x - x) <= / 1000000.
Proof. exact double_close. Qed.
Print Assumptions C125_double_close_partial.
Theorem C125_element_integers_partial : forall z, (Z.abs z < 1000000)%Z -> restored_elem (IZR z) = IZR z.
Proof. exact elem_int. Qed.
Print Assumptions C125_element_integers_partial.
Theorem C125_element_close_partial : forall x, is_double x -> bpow radix2 (-1000) <= Rabs x -> Rabs (restored_elem x - x) <= / 100000 * Rabs x.
Proof. exact elem_close. Qed.
Print Assumptions C125_element_close_partial.
Example C125_example : restored_double 12 = 12 /\ restored_elem 999999 = 999999.
Proof. split; [apply double_int; cbn; lia|apply elem_int; cbn; lia]. Qed.
