(** Proofs about blocks with vectors: element-wise blocks. *)
From Coq Require Import Reals List ZArith Bool Lia.
From Verif Require Import Prelude Num NumOrd CtrlModel CtrlModel2 VecModel VecSpec.
Import ListNotations.
Open Scope Z_scope.

Section Sim.
  Context {S1 S2 I1 I2 O1 O2 : Type} (f : S1 -> I1 -> S1 * O1) (g : S2 -> I2 -> S2 * O2)
    (pi : I1 -> I2) (po : O1 -> O2) (Rel : S1 -> S2 -> Prop) (P : I1 -> Prop).
  Lemma outs_sim : (forall s1 s2 i, Rel s1 s2 -> P i -> Rel (fst (f s1 i)) (fst (g s2 (pi i))) /\ po (snd (f s1 i)) = snd (g s2 (pi i))) ->
    forall is s1 s2, Rel s1 s2 -> Forall P is -> map po (outs f s1 is) = outs g s2 (map pi is).
  Proof.
    intros H is. induction is as [|i is IH]; intros s1 s2 R F; [reflexivity|].
    inversion F as [|x y Pi F']; subst. destruct (H s1 s2 i R Pi) as [R' E]. cbn [outs map].
    destruct (f s1 i) as [s1' o1]. destruct (g s2 (pi i)) as [s2' o2]. cbn [fst snd] in R', E. cbn [map]. rewrite E.
    f_equal. now apply IH.
  Qed.
End Sim.

Section V.
  Context (N : num).
  Notation el := (elt N).

  Lemma nth_map_combine {A B C : Type} (h : A * B -> C) : forall (a : list A) (b : list B) k da db dc,
    (k < length a)%nat -> (k < length b)%nat -> nth k (map h (combine a b)) dc = h (nth k a da, nth k b db).
  Proof.
    induction a as [|x a IH]; intros b k da db dc Ha Hb; [inversion Ha|].
    destruct b as [|y b]; [inversion Hb|]. destruct k as [|k]; [reflexivity|]. cbn in *. apply IH; lia.
  Qed.
  Lemma elt_map2 f a b k : (k < length a)%nat -> length b = length a -> el k (map2 N f a b) = f (el k a) (el k b).
  Proof.
    intros H L. unfold elt, map2. rewrite (nth_map_combine _ a b k (nofZ N 0) (nofZ N 0)); [reflexivity|exact H|now rewrite L].
  Qed.
  Lemma len_map2 f a b : length b = length a -> length (map2 N f a b) = length a.
  Proof. intros L. unfold map2. rewrite map_length, combine_length. lia. Qed.
  Lemma elt_map f (a : list N) k : (k < length a)%nat -> el k (map f a) = f (el k a).
  Proof.
    intros H. unfold elt. rewrite (nth_indep _ _ (f (nofZ N 0))) by now rewrite map_length. apply map_nth.
  Qed.
  Lemma elt_fill n k c : (k < n)%nat -> el k (vfill N n c) = c.
  Proof. intros H. unfold elt, vfill. revert k H. induction n as [|n IH]; intros k H; [lia|]. destruct k; [reflexivity|]. cbn. apply IH. lia. Qed.

  (** ** Saturation *)
  Lemma vsat_elt n en lo hi (i : signal (list N)) k : length lo = n -> length hi = n -> sized n i -> (k < n)%nat ->
    at_ N k (vsat_run N en lo hi i) = sat_run N {| sat_en := en; sat_lo := el k lo; sat_hi := el k hi |} (at_ N k i).
  Proof.
    intros L H S K. unfold sized in S. unfold at_, vsat_run, sat_run. cbn [sv st sat_en sat_lo sat_hi]. f_equal.
    destruct en; [|reflexivity]. unfold sat_calc_vec, elt.
    rewrite (nth_map_combine _ (combine lo hi) (sv i) k (nofZ N 0, nofZ N 0) (nofZ N 0));
      [|rewrite combine_length; lia|lia].
    cbn [fst snd]. rewrite combine_nth by congruence. reflexivity.
  Qed.

  (** ** Rate limiter *)
  Lemma vrl_calc_elt r prev x dt k : (k < length x)%nat -> length prev = length x ->
    el k (vrl_calc N r prev x dt) = rl_calc N (fst (rate_at N r k)) (snd (rate_at N r k)) (el k prev) (el k x) dt.
  Proof.
    intros K L. unfold vrl_calc, elt.
    rewrite (nth_map_combine _ (seq 0 (length x)) (combine prev x) k 0%nat (nofZ N 0, nofZ N 0));
      [|now rewrite seq_length|rewrite combine_length; lia].
    rewrite seq_nth by assumption. rewrite combine_nth by assumption. reflexivity.
  Qed.
  Lemma vrl_calc_len r prev x dt : length prev = length x -> length (vrl_calc N r prev x dt) = length x.
  Proof. intros L. unfold vrl_calc. rewrite map_length, !combine_length, seq_length. lia. Qed.
  Lemma vrl_outs n k : (k < n)%nat -> forall is s, sized n (vr_prev s) -> Forall (sized n) is ->
    map (at_ N k) (outs (vrl_run N) s is) = outs (rl_run N) (rlim_at N k s) (map (at_ N k) is).
  Proof.
    intros K is s S F.
    apply (outs_sim (vrl_run N) (rl_run N) (at_ N k) (at_ N k) (fun a b => sized n (vr_prev a) /\ b = rlim_at N k a) (sized n)); [|now split|exact F].
    clear is s S F. intros s1 s2 i [S ->] Hi. unfold sized in *. unfold vrl_run, rl_run. cbn [fst snd].
    assert (E : el k (if vr_en s1 then vrl_calc N (vr_rates s1) (sv (vr_prev s1)) (sv i) (nsub N (secs N (st i)) (secs N (st (vr_prev s1)))) else sv i)
      = (if vr_en s1 then rl_calc N (rl_fall (rlim_at N k s1)) (rl_rise (rlim_at N k s1)) (el k (sv (vr_prev s1))) (el k (sv i)) (nsub N (secs N (st i)) (secs N (st (vr_prev s1)))) else el k (sv i))).
    { destruct (vr_en s1); [|reflexivity]. rewrite vrl_calc_elt by lia. unfold rlim_at. cbn [rl_fall rl_rise].
      destruct (vr_rates s1); reflexivity. }
    split; [split|].
    - cbn [vr_prev sv]. destruct (vr_en s1); [|exact Hi]. rewrite vrl_calc_len; lia.
    - transitivity {| rl_prev := mksig (el k (if vr_en s1 then vrl_calc N (vr_rates s1) (sv (vr_prev s1)) (sv i) (nsub N (secs N (st i)) (secs N (st (vr_prev s1)))) else sv i)) (st i);
        rl_fall := rl_fall (rlim_at N k s1); rl_rise := rl_rise (rlim_at N k s1); rl_en := vr_en s1 |}; [rewrite E; reflexivity|reflexivity].
    - transitivity (mksig (el k (if vr_en s1 then vrl_calc N (vr_rates s1) (sv (vr_prev s1)) (sv i) (nsub N (secs N (st i)) (secs N (st (vr_prev s1)))) else sv i)) (st i)); [reflexivity|rewrite E; reflexivity].
  Qed.

  (** ** Wrap around *)
  Lemma vwa_elt n en r (i : signal (list N)) k : sized n i -> (k < n)%nat ->
    at_ N k (vwa_run N en r i) =
    wa_run N {| wa_en := en; wa_min := match r with ROne a _ => a | REach a _ => el k a end;
                wa_max := match r with ROne _ b => b | REach _ b => el k b end |} (at_ N k i).
  Proof.
    intros S K. unfold sized in S. unfold at_, vwa_run, wa_run. cbn [sv st wa_en wa_min wa_max]. f_equal.
    destruct en; [|reflexivity]. unfold elt.
    rewrite (nth_map_combine _ (seq 0 (length (sv i))) (sv i) k 0%nat (nofZ N 0)); [|rewrite seq_length; lia|lia].
    cbn [fst snd]. rewrite seq_nth by lia. destruct r; reflexivity.
  Qed.

  (** ** Differentiator *)
  Lemma vd_outs n k : (k < n)%nat -> forall is s, sized n (vd_prev s) -> length (vd_out s) = n -> Forall (sized n) is ->
    map (at_ N k) (outs (vd_run N) s is) = outs (d_run N) (diff_at N k s) (map (at_ N k) is).
  Proof.
    intros K is s S O F.
    apply (outs_sim (vd_run N) (d_run N) (at_ N k) (at_ N k)
      (fun a b => sized n (vd_prev a) /\ length (vd_out a) = n /\ b = diff_at N k a) (sized n)); [|now repeat split|exact F].
    clear is s S O F. intros s1 s2 i (S & O & ->) Hi. unfold sized in *. unfold vd_run, d_run.
    cbn [diff_at d_prev d_out d_time d_first at_ sv st].
    destruct (vd_first s1); [|destruct (neqb N (secs N (st i)) (secs N (st (vd_prev s1))))];
      cbn [fst snd vd_prev vd_out vd_time vd_first]; repeat split; try assumption.
    - unfold vfill. now rewrite repeat_length.
    - unfold diff_at. cbn [vd_prev vd_out vd_time vd_first]. now rewrite elt_fill by lia.
    - unfold at_. cbn [sv st]. now rewrite elt_fill by lia.
    - unfold vdiv, vsub. rewrite map_length, len_map2; lia.
    - unfold diff_at. cbn [vd_prev vd_out vd_time vd_first]. unfold vdiv, vsub.
      rewrite elt_map by (rewrite len_map2; lia). now rewrite elt_map2 by lia.
    - unfold at_. cbn [sv st]. unfold vdiv, vsub. rewrite elt_map by (rewrite len_map2; lia). now rewrite elt_map2 by lia.
  Qed.

  (** ** Low pass filter *)
  Lemma vlp_outs n k : (k < n)%nat -> forall is s, length (vl_prev s) = n -> Forall (sized n) is ->
    map (at_ N k) (outs (vlp_run N) s is) = outs (lp_run N) (lpf_at N k s) (map (at_ N k) is).
  Proof.
    intros K is s S F.
    apply (outs_sim (vlp_run N) (lp_run N) (at_ N k) (at_ N k) (fun a b => length (vl_prev a) = n /\ b = lpf_at N k a) (sized n)); [|now split|exact F].
    clear is s S F. intros s1 s2 i (S & ->) Hi. unfold sized in *. unfold vlp_run, lp_run.
    cbn [lpf_at lp_alpha lp_first lp_en lp_prev at_ sv st fst snd vl_prev].
    set (p := if vl_first s1 then sv i else vl_prev s1).
    assert (P : length p = n) by (unfold p; destruct (vl_first s1); assumption).
    assert (Ep : (if vl_first s1 then el k (sv i) else el k (vl_prev s1)) = el k p) by (unfold p; destruct (vl_first s1); reflexivity).
    rewrite Ep.
    assert (E : el k (if vl_en s1 then vadd N (vscale N (sv i) (vl_alpha s1)) (vscale N p (nsub N (nofZ N 1) (vl_alpha s1))) else sv i) =
      (if vl_en s1 then nadd N (nmul N (el k (sv i)) (vl_alpha s1)) (nmul N (el k p) (nsub N (nofZ N 1) (vl_alpha s1))) else el k (sv i))).
    { destruct (vl_en s1); [|reflexivity]. unfold vadd, vscale. rewrite elt_map2 by (rewrite ?map_length; lia).
      now rewrite !elt_map by lia. }
    repeat split.
    - destruct (vl_en s1); [|exact Hi]. unfold vadd, vscale. rewrite len_map2 by (rewrite !map_length; lia). now rewrite map_length.
    - unfold lpf_at. cbn [vl_alpha vl_first vl_en vl_prev]. now rewrite E.
    - unfold at_. cbn [sv st]. now rewrite E.
  Qed.

  (** ** Moving average *)
  Lemma vma_fold n k : (k < n)%nat -> forall l a, length a = n -> Forall (fun p => length (snd p) = n) l ->
    length (fold_left (fun a p => vadd N a (scalev N (fst p) (snd p))) l a) = n /\
    el k (fold_left (fun a p => vadd N a (scalev N (fst p) (snd p))) l a) =
    fold_left (fun a p => nadd N a (nmul N (fst p) (snd p))) (map (fun p => (fst p, el k (snd p))) l) (el k a).
  Proof.
    intros K. induction l as [|[c v] l IH]; intros a A F; [now split|].
    inversion F as [|x y V F']; subst. cbn [fold_left map fst snd] in *.
    assert (L : length (scalev N c v) = length a) by (unfold scalev; rewrite map_length; lia).
    destruct (IH (vadd N a (scalev N c v))) as [IL IE]; [unfold vadd; now rewrite len_map2|exact F'|].
    split; [exact IL|]. rewrite IE. f_equal. unfold vadd. rewrite elt_map2 by lia. unfold scalev. now rewrite elt_map by lia.
  Qed.
  Lemma combine_map_r {A : Type} (h : list N -> N) : forall (c : list A) (l : list (list N)),
    map (fun p => (fst p, h (snd p))) (combine c l) = combine c (map h l).
  Proof. induction c as [|x c IH]; intros [|y l]; cbn; try reflexivity. now rewrite IH. Qed.
  Lemma map_tl {A B : Type} (h : A -> B) l : map h (tl l) = tl (map h l).
  Proof. now destruct l. Qed.
  Lemma Forall_combine {A : Type} (Q : list N -> Prop) : forall (c : list A) l, Forall Q l -> Forall (fun p => Q (snd p)) (combine c l).
  Proof. induction c as [|x c IH]; intros l F; [constructor|]. destruct F; cbn; constructor; auto. Qed.
  Lemma vma_outs n k : (k < n)%nat -> forall is s, vm_coef s <> [] -> Forall (fun v => length v = n) (vm_prev s) -> Forall (sized n) is ->
    map (at_ N k) (outs (vma_run N) s is) = outs (ma_run N) (maf_at N k s) (map (at_ N k) is).
  Proof.
    intros K is s C S F.
    apply (outs_sim (vma_run N) (ma_run N) (at_ N k) (at_ N k)
      (fun a b => vm_coef a <> [] /\ Forall (fun v => length v = n) (vm_prev a) /\ b = maf_at N k a) (sized n)); [|now repeat split|exact F].
    clear is s C S F. intros s1 s2 i (C & S & ->) Hi. unfold sized in *. unfold vma_run, ma_run.
    cbn [maf_at ma_coef ma_prev ma_en at_ sv st fst snd vm_coef vm_prev].
    assert (T : Forall (fun v => length v = n) (tl (vm_prev s1))) by (destruct S; [constructor|assumption]).
    repeat split; [exact C| | |].
    - apply Forall_app. split; [exact T|]. constructor; [exact Hi|constructor].
    - unfold maf_at. cbn [vm_coef vm_prev vm_en]. rewrite map_app, map_tl. reflexivity.
    - unfold at_. cbn [sv st]. f_equal. destruct (vm_en s1); [|reflexivity].
      unfold ma_result. rewrite <- map_tl, <- combine_map_r.
      assert (L : length (scalev N (last (vm_coef s1) (nofZ N 0)) (sv i)) = n) by (unfold scalev; now rewrite map_length).
      rewrite (proj2 (vma_fold n k K _ _ L (Forall_combine (fun v => length v = n) (removelast (vm_coef s1)) _ T))).
      f_equal. unfold scalev. rewrite elt_map by lia. f_equal.
      destruct (vm_coef s1) as [|c0 cs] eqn:E; [congruence|]. clear. revert c0. induction cs as [|c cs IH]; intros c0; [reflexivity|apply IH].
  Qed.

  (** ** Sum *)
  Lemma vsum_fold n k : (k < n)%nat -> forall l a, length a = n -> Forall (fun p : bool * signal (list N) => sized n (snd p)) l ->
    el k (fold_left (fun a p => if fst p : bool then vsub N a (sv (snd p)) else vadd N a (sv (snd p))) l a) =
    fold_left (fun a p => if fst p : bool then nsub N a (snd p) else nadd N a (snd p)) (map (fun p => (fst p, el k (sv (snd p)))) l) (el k a).
  Proof.
    intros K. induction l as [|[b v] l IH]; intros a A F; [reflexivity|].
    inversion F as [|x y V F']; subst. unfold sized in V. cbn [fold_left map fst snd] in *.
    destruct b; (rewrite IH; [|unfold vsub, vadd; rewrite len_map2; lia|exact F']); unfold vsub, vadd; now rewrite elt_map2 by lia.
  Qed.
  Lemma vsum_elt n k neg is : (k < n)%nat -> Forall (sized n) is ->
    at_ N k (vsum_run N n neg is) = mksig (sum_acc N neg (map (fun i => sv (at_ N k i)) is)) (match is with i :: _ => st i | [] => 0 end).
  Proof.
    intros K F. unfold at_ at 1, vsum_run. cbn [sv st]. f_equal. unfold sum_acc.
    rewrite (vsum_fold n k K).
    - rewrite elt_fill by exact K. f_equal. clear. revert is. induction neg as [|b neg IH]; intros [|i is]; cbn; try reflexivity. now rewrite IH.
    - unfold vfill. now rewrite repeat_length.
    - clear -F. revert is F. induction neg as [|b neg IH]; intros is F; [constructor|]. destruct F; cbn; constructor; auto.
  Qed.
End V.
