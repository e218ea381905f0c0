(** * What blocks with vectors should do *)
From Coq Require Import Reals List ZArith Bool.
From Verif Require Import Prelude Num CtrlModel CtrlModel2 VecModel.
Import ListNotations.
Open Scope Z_scope.

(** The outputs of a block run with the inputs [is]. *)
Fixpoint outs {S I O : Type} (f : S -> I -> S * O) (s : S) (is : list I) : list O :=
  match is with
  | [] => []
  | i :: is' => let (s', o) := f s i in o :: outs f s' is'
  end.

(** Element [k] of a vector, and of a signal. *)
Definition elt (N : num) (k : nat) (v : list N) : N := nth k v (nofZ N 0).
Definition at_ (N : num) (k : nat) (i : signal (list N)) : signal N := mksig (elt N k (sv i)) (st i).
(** Signals with vectors of length [n]. *)
Definition sized {N : num} (n : nat) (i : signal (list N)) : Prop := length (sv i) = n.

(** A scalar integrator that is not at its limits in any of the runs. *)
Fixpoint unlimited (N : num) (s : integ N) (is : list (option bool * signal N)) : Prop :=
  match is with
  | [] => True
  | (l, i) :: is' =>
    let dt := if i_first s then nofZ N 0 else nsub N (secs N (st i)) (secs N (st (i_prev s))) in
    let v := nadd N (sv (i_prev s)) (nmul N (sv i) dt) in
    (match l with Some b => b | None => i_en s end = true -> nltb N v (i_hi s) = true /\ nltb N (i_lo s) v = true) /\
    unlimited N (fst (i_run N s l i)) is'
  end.

(** The scalar blocks for element [k]. *)
Definition integ_at (N : num) (k : nat) (s : vinteg N) : integ N :=
  {| i_first := vi_first s; i_en := vi_en s; i_prev := at_ N k (vi_prev s); i_hi := elt N k (vi_hi s);
     i_lo := elt N k (vi_lo s) |}.
Definition gain_at (N : num) (k : nat) (s : vgain N) : gain N :=
  {| g_gain := elt N k (vg_gain s); g_max := elt N k (vg_max s); g_min := elt N k (vg_min s);
     g_target := elt N k (vg_target s); g_diff := elt N k (vg_diff s); g_en := vg_en s; g_smooth := vg_smooth s |}.
Definition rlim_at (N : num) (k : nat) (s : vrlim N) : rlim N :=
  {| rl_prev := at_ N k (vr_prev s);
     rl_fall := match vr_rates s with ROne f _ => f | REach f _ => elt N k f end;
     rl_rise := match vr_rates s with ROne _ r => r | REach _ r => elt N k r end; rl_en := vr_en s |}.
Definition diff_at (N : num) (k : nat) (s : vdiff N) : diff N :=
  {| d_prev := at_ N k (vd_prev s); d_out := elt N k (vd_out s); d_time := vd_time s; d_first := vd_first s |}.
Definition lpf_at (N : num) (k : nat) (s : vlpf N) : lpf N :=
  {| lp_alpha := vl_alpha s; lp_first := vl_first s; lp_en := vl_en s; lp_prev := elt N k (vl_prev s) |}.
Definition maf_at (N : num) (k : nat) (s : vmaf N) : maf N :=
  {| ma_coef := vm_coef s; ma_prev := map (elt N k) (vm_prev s); ma_en := vm_en s |}.

(** All vectors of a gain have length [n]. *)
Definition vg_sized {N : num} (n : nat) (s : vgain N) : Prop :=
  length (vg_gain s) = n /\ length (vg_max s) = n /\ length (vg_min s) = n /\ length (vg_target s) = n /\
  length (vg_diff s) = n.
(** All elements of the vectors are the same. *)
Definition uniform {N : num} (n : nat) (s : vgain N) (g : gain N) : Prop :=
  vg_gain s = repeat (g_gain g) n /\ vg_max s = repeat (g_max g) n /\ vg_min s = repeat (g_min g) n /\
  vg_target s = repeat (g_target g) n /\ vg_diff s = repeat (g_diff g) n /\
  vg_en s = g_en g /\ vg_smooth s = g_smooth g.

(** [o] is an element of [l] with at most [r] smaller ones and at most [length l - 1 - r] greater ones. *)
Definition ranked (N : num) (l : list (list N)) (r : nat) (o : list N) : Prop :=
  In o l /\ (length (filter (fun x => vec_lt N x o) l) <= r)%nat /\
  (length (filter (fun x => vec_lt N o x) l) <= length l - 1 - r)%nat.
(** The contract of std::sort: a permutation in which no element is less than one before it. *)
Definition sorts (N : num) (sort : list (list N) -> list (list N)) : Prop :=
  forall l, weak_order N (vec_lt N) l = true -> Permutation.Permutation l (sort l) /\
    forall i j, (i < j < length l)%nat -> vec_lt N (nth j (sort l) []) (nth i (sort l) []) = false.
(** The input [u] at every [d] ns: run number [t] has the timestamp [(t + 1) * d]. *)
Definition steady (u : R * R) (d : Z) (t : nat) : option bool * signal (list Rnum) := (None, mksig [fst u; snd u] (Z.of_nat (S t) * d)).
(** The sum of the squares. *)
Definition sumsq (v : list R) : R := fold_right (fun x a => x * x + a)%R 0%R v.
