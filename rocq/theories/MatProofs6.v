(** Proofs about the remaining matrix operations. *)
From Coq Require Import Ascii List Bool Lia Reals Floats.SpecFloat.
From Verif Require Import Prelude Num MatModel MatProofs MatModel2 MatSpec2.
Import ListNotations.
Open Scope nat_scope.

Section P.
  Context (T : num).

  Lemma left_ok f M N c (a g : mem T) :
    exists r, m_left T f M N c a g = Ok r /\ forall m n, m < M -> n < N -> r (M * n + m) = f c (a (M * n + m)).
  Proof. exact (map_ok T (f c) M N a g). Qed.
  Lemma cneg_ok M N (a g : mem T) :
    exists r, m_cneg T M N a g = Ok r /\ forall m n, m < M -> n < N -> r (M * n + m) = nsub T (nofZ T 0) (a (M * n + m)).
  Proof. exact (map_ok T (mopp T) M N a g). Qed.
  Lemma addto_ok M N (a b g : mem T) :
    exists r, m_addto T M N a b g = Ok r /\ forall m n, m < M -> n < N -> r (M * n + m) = nadd T (a (M * n + m)) (b (M * n + m)).
  Proof. apply zip_ok. Qed.
  Lemma subfrom_ok M N (a b g : mem T) :
    exists r, m_subfrom T M N a b g = Ok r /\ forall m n, m < M -> n < N -> r (M * n + m) = nsub T (a (M * n + m)) (b (M * n + m)).
  Proof. apply zip_ok. Qed.

  Lemma colvec_ok M N (a : mem T) n : n < N -> m_colvec T M N a n = Ok (map (fun m => a (M * n + m)) (seq 0 M)).
  Proof.
    intros H. unfold m_colvec.
    destruct (loop_inv (fun k l => k <= M /\ l = map (fun m => a (M * n + m)) (seq 0 k)) (fun m l => bind (rd T M N a m n) (fun v => Ok (l ++ [v]))) M []) as (l & E & _ & ->).
    - split; [lia|reflexivity].
    - intros k l K [_ ->]. eexists. rewrite rd_ok by assumption. split; [reflexivity|]. split; [lia|]. now rewrite seq_S, map_app.
    - exact E.
  Qed.
  Lemma rowvec_ok M N (a : mem T) m : m < M -> m_rowvec T M N a m = Ok (map (fun n => a (M * n + m)) (seq 0 N)).
  Proof.
    intros H. unfold m_rowvec.
    destruct (loop_inv (fun k l => k <= N /\ l = map (fun n => a (M * n + m)) (seq 0 k)) (fun n l => bind (rd T M N a m n) (fun v => Ok (l ++ [v]))) N []) as (l & E & _ & ->).
    - split; [lia|reflexivity].
    - intros k l K [_ ->]. eexists. rewrite rd_ok by assumption. split; [reflexivity|]. split; [lia|]. now rewrite seq_S, map_app.
    - exact E.
  Qed.
  Lemma colvec_out M N (a : mem T) n : 0 < M -> N <= n -> m_colvec T M N a n = Fault.
  Proof. intros H K. destruct M; [lia|]. unfold m_colvec, loop. cbn [loop_from]. rewrite rd_out by lia. reflexivity. Qed.
  Lemma rowvec_out M N (a : mem T) m : 0 < N -> M <= m -> m_rowvec T M N a m = Fault.
  Proof. intros H K. destruct N; [lia|]. unfold m_rowvec, loop. cbn [loop_from]. rewrite rd_out by lia. reflexivity. Qed.

  Lemma setcol_loop M N (a : mem T) n col : n < N -> M <= length col ->
    exists r, m_setcol_vec T M N a n col = Ok r /\
      forall m n', m < M -> n' < N -> r (M * n' + m) = if n' =? n then nth m col (nofZ T 0) else a (M * n' + m).
  Proof.
    intros H L. unfold m_setcol_vec.
    destruct (loop_inv (fun k (r : mem T) => forall m n', m < M -> n' < N -> r (M * n' + m) = if (n' =? n) && (m <? k) then nth m col (nofZ T 0) else a (M * n' + m))
      (fun m a => bind (vec_at T col m) (fun v => wr T M N a m n v)) M a) as (r & E & P).
    - intros m n' Hm Hn. now rewrite andb_false_r.
    - intros k r K P. unfold vec_at. rewrite (nth_error_nth' col (nofZ T 0)) by lia. cbn [bind]. rewrite wr_ok by lia.
      eexists. split; [reflexivity|]. intros m n' Hm Hn. rewrite upd_cell by lia. rewrite P by lia.
      destruct (Nat.eqb_spec m k) as [->|Q], (Nat.eqb_spec n' n) as [->|Q']; cbn [andb]; try reflexivity.
      + now rewrite (proj2 (Nat.ltb_lt k (S k))) by lia.
      + replace (m <? S k) with (m <? k); [reflexivity|]. destruct (Nat.ltb_spec m k), (Nat.ltb_spec m (S k)); try reflexivity; lia.
    - exists r. split; [exact E|]. intros m n' Hm Hn. rewrite P by lia. now rewrite (proj2 (Nat.ltb_lt m M) Hm), andb_true_r.
  Qed.
  Lemma get_set M N (a : mem T) n col : n < N -> length col = M ->
    exists r, m_setcol_vec T M N a n col = Ok r /\ m_colvec T M N r n = Ok col.
  Proof.
    intros H L. destruct (setcol_loop M N a n col H ltac:(lia)) as (r & E & P). exists r. split; [exact E|].
    rewrite colvec_ok by exact H. f_equal. subst M.
    apply (nth_ext _ _ (nofZ T 0) (nofZ T 0)); [now rewrite map_length, seq_length|].
    intros k K. rewrite map_length, seq_length in K.
    rewrite (nth_indep _ _ (r (length col * n + 0))) by now rewrite map_length, seq_length.
    rewrite (map_nth (fun m => r (length col * n + m))). rewrite seq_nth by exact K. cbn [Nat.add]. rewrite P by lia. now rewrite Nat.eqb_refl.
  Qed.
  Lemma set_get M N (a : mem T) n : n < N -> exists col r, m_colvec T M N a n = Ok col /\ m_setcol_vec T M N a n col = Ok r /\
    forall m n', m < M -> n' < N -> r (M * n' + m) = a (M * n' + m).
  Proof.
    intros H. exists (map (fun m => a (M * n + m)) (seq 0 M)).
    destruct (setcol_loop M N a n (map (fun m => a (M * n + m)) (seq 0 M)) H ltac:(rewrite map_length, seq_length; lia)) as (r & E & P).
    exists r. split; [now apply colvec_ok|]. split; [exact E|]. intros m n' Hm Hn. rewrite P by assumption.
    destruct (Nat.eqb_spec n' n) as [->|]; [|reflexivity].
    rewrite (nth_indep _ _ (a (M * n + 0))) by now rewrite map_length, seq_length.
    rewrite (map_nth (fun m => a (M * n + m))). now rewrite seq_nth by exact Hm.
  Qed.

  (** Values: the constructor fills column by column. *)
  Lemma values_at M (vs : list T) m n : m_values T vs (M * n + m) = nth (M * n + m) vs (nofZ T 0).
  Proof. reflexivity. Qed.

  Lemma vector2_ok x y (g : mem T) : exists r, m_vector2 T x y g = Ok r /\ rd T 2 1 r 0 0 = Ok x /\ rd T 2 1 r 1 0 = Ok y.
  Proof. eexists. split; [reflexivity|]. split; reflexivity. Qed.
  Lemma vector3_ok x y z (g : mem T) : exists r, m_vector3 T x y z g = Ok r /\
    rd T 3 1 r 0 0 = Ok x /\ rd T 3 1 r 1 0 = Ok y /\ rd T 3 1 r 2 0 = Ok z.
  Proof. eexists. split; [reflexivity|]. repeat split; reflexivity. Qed.

  Lemma diag_ok M N v (g g' : mem T) : exists r, m_diag T M N v g g' = Ok r /\
    forall m n, m < M -> n < N -> r (M * n + m) = nmul T (if m =? n then nofZ T 1 else nofZ T 0) v.
  Proof.
    unfold m_diag. destruct (eye_ok T M N g) as (d & -> & D). cbn [bind].
    destruct (map_ok T (fun x => nmul T x v) M N d g') as (r & E & R). exists r. split; [exact E|].
    intros m n Hm Hn. rewrite R by assumption. now rewrite D.
  Qed.

  (** Printing *)
  Lemma words_sep w c t : separator c = true -> words_from w (c :: t) = match w with [] => words t | _ => rev w :: words t end.
  Proof. intros H. cbn [words_from]. rewrite H. now destruct w. Qed.
  Lemma words_word w : forall acc t, (forall c, In c w -> separator c = false) -> words_from acc (w ++ t) = words_from (rev w ++ acc) t.
  Proof.
    induction w as [|c w IH]; intros acc t H; [reflexivity|]. cbn [app words_from]. rewrite (H c) by now left.
    rewrite IH by (intros; apply H; now right). cbn [rev]. now rewrite <- app_assoc.
  Qed.
  Lemma words_next w c t : word w -> separator c = true -> words (w ++ c :: t) = w :: words t.
  Proof.
    intros [NE W] S. unfold words. rewrite words_word by exact W. rewrite app_nil_r, words_sep by exact S.
    destruct (rev w) eqn:E; [apply (f_equal (@rev _)) in E; rewrite rev_involutive in E; now subst w|].
    rewrite <- E, rev_involutive. reflexivity.
  Qed.
  Lemma words_skip c t : separator c = true -> words (c :: t) = words t.
  Proof. intros S. unfold words. now rewrite words_sep. Qed.

  Lemma print_col_words show M (a : mem T) n t : (forall x, word (show x)) ->
    words (print_col T show M a n ++ t) = map (fun m => show (a (M * n + m))) (seq 0 M) ++ words t.
  Proof.
    intros W. unfold print_col. cbn [app]. rewrite words_skip by reflexivity. rewrite <- app_assoc. cbn [app].
    assert (G : forall k i, i + k = M -> words (concat (map (fun m => show (a (M * n + m)) ++ (if m <? M - 1 then [" "%char] else [])) (seq i k)) ++ "]"%char :: "'"%char :: " "%char :: t)
      = map (fun m => show (a (M * n + m))) (seq i k) ++ words t).
    { induction k as [|k IH]; intros i E; cbn [seq map concat app].
      - now rewrite !words_skip by reflexivity.
      - destruct (Nat.ltb_spec i (M - 1)) as [L|L].
        + rewrite <- !app_assoc. cbn [app]. rewrite words_next by (auto; reflexivity). f_equal. apply IH. lia.
        + assert (k = 0) by lia. subst k. cbn [seq map concat app]. rewrite !app_nil_r. rewrite words_next by (auto; reflexivity). now rewrite !words_skip by reflexivity. }
    apply G. lia.
  Qed.
  Lemma print_words show M N (a : mem T) : (forall x, word (show x)) -> words (m_print T show M N a) = map (fun i => show (a i)) (seq 0 (M * N)).
  Proof.
    intros W. unfold m_print.
    assert (H : forall t, words ((if 1 <? N then ["["%char; " "%char] else []) ++ t) = words t).
    { intros t. destruct (1 <? N); cbn [app]; [now rewrite !words_skip by reflexivity|reflexivity]. }
    rewrite H. clear H.
    assert (G : forall k i, words (concat (map (print_col T show M a) (seq i k)) ++ (if 1 <? N then ["]"%char] else [])) = map (fun j => show (a j)) (seq (M * i) (M * k))).
    { induction k as [|k IH]; intros i; cbn [seq map concat app].
      - rewrite Nat.mul_0_r. cbn [seq map]. destruct (1 <? N); reflexivity.
      - rewrite <- app_assoc, print_col_words by exact W. rewrite IH. replace (M * S k) with (M + M * k) by lia. rewrite seq_app, map_app.
        f_equal; [|f_equal; f_equal; lia].
        clear. assert (G : forall k b c, map (fun m => show (a (b + m))) (seq c k) = map (fun j => show (a j)) (seq (b + c) k)).
        { induction k as [|k IH]; intros b c; [reflexivity|]. cbn [seq map]. f_equal. rewrite IH. f_equal. f_equal. lia. }
        rewrite G. now rewrite Nat.add_0_r. }
    rewrite G. now rewrite Nat.mul_0_r.
  Qed.
End P.

Lemma zero_times v : match v with S754_zero _ | S754_finite _ _ _ => True | _ => False end -> exists s, nmul Dnum (dofZ 0) v = S754_zero s.
Proof. destruct v as [s|s| |s m e]; intros []; eexists; reflexivity. Qed.
