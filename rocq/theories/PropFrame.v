(** Properties C65, C66, C131: frames and coordinate systems. *)
From Verif Require Import Prelude Num MatModel MatProofs ConfModel FrameModel FrameSpec FrameProofs.
Open Scope nat_scope.

(** C65 *)
Theorem C65_unique_partial : forall (T : num) ops s rs, run T (state0 T) ops = Ok (s, rs) -> Forall (plain T) ops ->
  forall f g x y, fr s f = Some x -> fr s g = Some y -> f_a x = f_a y -> f_b x = f_b y -> f = g.
Proof. exact unique_frames. Qed.
Print Assumptions C65_unique_partial.
(** A copied frame is a second frame for the same pair, and the pair is free again when the original is destroyed. *)
Theorem C65_copy_refuted : exists ops, forall (T : num) (M : mem T), exists s, run T (state0 T) (ops T M) = Ok (s, [Done; Done; Done; Done; Done]) /\
  fr s 11 = Some {| f_a := 1; f_b := 2; f_T := M |} /\ fr s 12 = Some {| f_a := 1; f_b := 2; f_T := M |}.
Proof. exact (ex_intro _ _ copy_duplicates). Qed.
Print Assumptions C65_copy_refuted.
Theorem C65_copy_deleted_refuted : exists ops, forall (T : num) (M : mem T), exists s, run T (state0 T) (ops T M) = Ok (s, [Done; Done; Done; Done; Done; Done; Ptr None; Done]) /\
  fr s 12 = Some {| f_a := 1; f_b := 2; f_T := M |} /\ fr s 11 = Some {| f_a := 1; f_b := 2; f_T := M |}.
Proof. exact (ex_intro _ _ copy_deleted). Qed.
Print Assumptions C65_copy_deleted_refuted.
Theorem C65_lookup_partial : forall (T : num) ops s rs a b, run T (state0 T) ops = Ok (s, rs) -> Forall (plain T) ops ->
  exists p, step T s (GetFrame a b) = Ok (s, Ptr p) /\ forall f, p = Some f <-> exists x, fr s f = Some x /\ f_a x = a /\ f_b x = b.
Proof. exact get_frame. Qed.
Print Assumptions C65_lookup_partial.
Theorem C65_create : forall (T : num) s addr a b M ops rs, run T (state0 T) ops = Ok (s, rs) -> fr s addr = None -> cs s a <> None -> cs s b <> None ->
  (forall f x, fr s f = Some x -> ~ (f_a x = a /\ f_b x = b)) ->
  exists s', step T s (NewFrameT addr a b M) = Ok (s', Done) /\ fr s' addr = Some {| f_a := a; f_b := b; f_T := M |} /\ (forall f, f <> addr -> fr s' f = fr s f).
Proof. exact created. Qed.
Print Assumptions C65_create.
Theorem C65_existing_pair_partial : forall (T : num) ops s rs addr a b M f x, run T (state0 T) ops = Ok (s, rs) -> Forall (plain T) ops -> fr s addr = None -> cs s a <> None -> cs s b <> None ->
  fr s f = Some x -> f_a x = a -> f_b x = b -> step T s (NewFrameT addr a b M) = Ok (s, Thrown).
Proof. exact duplicate. Qed.
Print Assumptions C65_existing_pair_partial.
Theorem C65_product : forall (T : num) ops s rs addr f1 f2 x y g, run T (state0 T) ops = Ok (s, rs) -> fr s addr = None -> fr s f1 = Some x -> fr s f2 = Some y -> f_b x = f_a y ->
  (forall f z, fr s f = Some z -> ~ (f_a z = f_a x /\ f_b z = f_b y)) ->
  exists s' M, step T s (Mul addr f1 f2 true g) = Ok (s', Done) /\ m_mul T 4 4 4 (f_T x) (f_T y) g = Ok M /\
    fr s' addr = Some {| f_a := f_a x; f_b := f_b y; f_T := M |} /\ (forall f, f <> addr -> fr s' f = fr s f) /\ fr_list s' = fr_list s ++ [addr] /\
    forall m k, m < 4 -> k < 4 -> M (4 * k + m) = accum T (fun n => nmul T (f_T x (4 * n + m)) (f_T y (4 * k + n))) 4.
Proof. exact product. Qed.
Print Assumptions C65_product.
(** If the compiler does not elide the copy of the result, the product cannot be found afterwards. *)
Theorem C65_product_copied_refuted : exists ops, forall (T : num) (M : mem T), exists s N, run T (state0 T) (ops T M) = Ok (s, [Done; Done; Done; Done; Done; Done; Ptr None]) /\
  fr s 13 = Some {| f_a := 1; f_b := 3; f_T := N |}.
Proof. exact (ex_intro _ _ product_lost). Qed.
Print Assumptions C65_product_copied_refuted.
Theorem C65_mismatch : forall (T : num) s addr f1 f2 x y e g, fr s addr = None -> fr s f1 = Some x -> fr s f2 = Some y -> f_b x <> f_a y -> step T s (Mul addr f1 f2 e g) = Ok (s, Thrown).
Proof. exact mismatch. Qed.
Print Assumptions C65_mismatch.
Theorem C65_rotation_translation : forall (T : num) (M R r : mem T),
  (forall m n, m < 3 -> n < 3 -> set_rt T M R r (4 * n + m) = R (3 * n + m)) /\ (forall m, m < 3 -> set_rt T M R r (4 * 3 + m) = r m) /\
  (forall n, n < 3 -> set_rt T M R r (4 * n + 3) = nofZ T 0) /\ set_rt T M R r (4 * 3 + 3) = nofZ T 1.
Proof. exact set_rt_entries. Qed.
Print Assumptions C65_rotation_translation.
Theorem C65_defined : forall (T : num) ops s rs o, run T (state0 T) ops = Ok (s, rs) -> legal T s o -> exists s' r, step T s o = Ok (s', r).
Proof. exact legal_defined. Qed.
Print Assumptions C65_defined.
Example C65_example (M : mem Dnum) : exists s, run Dnum (state0 Dnum) (two_systems Dnum ++ [NewFrameT 11 1 2 M; NewFrameT 12 1 2 M; DelFrame 11; NewFrameT 12 1 2 M; GetFrame 1 2; GetFrame 2 1; NofFrames]) =
  Ok (s, [Done; Done; Done; Done; Thrown; Done; Done; Ptr (Some 12); Ptr None; Count 1]).
Proof. eexists. reflexivity. Qed.

(** C66 *)
Theorem C66_lookup_refuted : exists id, forall (T : num), (exists s, run T (state0 T) [NewCS 1 id] = Ok (s, [Done])) /\ exists s, run T (state0 T) [GetCS id; NewCS 1 id] = Ok (s, [Ptr None; Thrown]).
Proof. exact lookup_matters. Qed.
Print Assumptions C66_lookup_refuted.
(** The id is lost for ever: whatever happens afterwards, a coordinate system with that id cannot be constructed. *)
Theorem C66_lost_forever_partial : forall (T : num) ops s rs id s1 ops2 s2 rs2 addr, run T (state0 T) ops = Ok (s, rs) -> (forall a, cs s a <> Some id) ->
  step T s (GetCS id) = Ok (s1, Ptr None) -> run T s1 ops2 = Ok (s2, rs2) -> cs s2 addr = None -> step T s2 (NewCS addr id) = Ok (s2, Thrown).
Proof. exact id_lost. Qed.
Print Assumptions C66_lost_forever_partial.
Theorem C66_others_partial : forall (T : num) ops s rs id s1 r, run T (state0 T) ops = Ok (s, rs) -> step T s (GetCS id) = Ok (s1, r) ->
  forall ops2, (forall a, ~ In (NewCS a id) ops2) ->
  match run T s ops2, run T s1 ops2 with Ok (_, rs), Ok (_, rs') => rs = rs' | UB, UB => True | Fault, Fault => True | _, _ => False end.
Proof. exact lookup_harmless. Qed.
Print Assumptions C66_others_partial.
Theorem C66_answer : forall (T : num) ops s rs id, run T (state0 T) ops = Ok (s, rs) ->
  exists s' p, step T s (GetCS id) = Ok (s', Ptr p) /\ (forall a, p = Some a <-> cs s a = Some id) /\ cs s' = cs s /\ fr s' = fr s /\ fr_list s' = fr_list s /\ (p <> None -> s' = s).
Proof. exact get_cs. Qed.
Print Assumptions C66_answer.
Example C66_example : exists s, run Dnum (state0 Dnum) [NewCS 1 idA; GetCS idA; GetCS idB; DelCS 1; NewCS 4 idA; GetCS idA] = Ok (s, [Done; Ptr (Some 1); Ptr None; Done; Done; Ptr (Some 4)]).
Proof. eexists. reflexivity. Qed.

(** C131: a frame belongs to the coordinate systems it was created for. It does as long as they live; nothing
    keeps a coordinate system from being destroyed before its frames, and a new one may take its place. *)
Theorem C131_outlived_refuted : exists id id' ops, id <> id' /\ forall (T : num) (M : mem T), 
  (exists s rs, run T (state0 T) (firstn 3 (ops T M)) = Ok (s, rs) /\ cs s 2 = Some id /\ fr s 11 = Some {| f_a := 1; f_b := 2; f_T := M |}) /\
  exists s rs, run T (state0 T) (ops T M) = Ok (s, rs) /\ cs s 2 = Some id' /\ last rs Done = Ptr (Some 11).
Proof. exact outlived. Qed.
Print Assumptions C131_outlived_refuted.
Theorem C131_kept_partial : forall (T : num) ops s s' rs f x, run T s ops = Ok (s', rs) -> fr s f = Some x -> ~ In (DelFrame f) ops -> ~ In (DelCS (f_a x)) ops -> ~ In (DelCS (f_b x)) ops ->
  cs s (f_a x) <> None -> cs s (f_b x) <> None ->
  exists M, fr s' f = Some {| f_a := f_a x; f_b := f_b x; f_T := M |} /\ cs s' (f_a x) = cs s (f_a x) /\ cs s' (f_b x) = cs s (f_b x).
Proof. exact frame_kept. Qed.
Print Assumptions C131_kept_partial.
Example C131_example (M : mem Dnum) : exists s, run Dnum (state0 Dnum) (two_systems Dnum ++ [NewFrameT 11 1 2 M; DelCS 3; SetT 11 M]) = Ok (s, [Done; Done; Done; Done; Done; Done]) /\ cs s 1 <> None /\ cs s 2 <> None.
Proof. eexists. split; [reflexivity|]. split; discriminate. Qed.
