(** The Kalman filter in exact arithmetic. *)
From Verif Require Import Prelude Num MatModel KalmanModel.
From mathcomp Require Import all_ssreflect all_algebra.
From Verif Require Import MatRing MatMain.
Set Implicit Arguments. Unset Strict Implicit. Unset Printing Implicit Defensive.
Import Order.Theory GRing.Theory Num.Theory.
Local Open Scope ring_scope.
Local Notation mem := MatModel.mem.

(** ** Vocabulary *)
Definition symmetric (R : ringType) n (A : 'M[R]_n) : Prop := A^T = A.
Definition psd (F : realFieldType) n (A : 'M[F]_n) : Prop := forall v : 'rV_n, 0 <= (v *m A *m v^T) 0 0.
Definition pd (F : realFieldType) n (A : 'M[F]_n) : Prop := forall v : 'rV_n, v != 0 -> 0 < (v *m A *m v^T) 0 0.
(** Numbers of outputs for which the inverse is right (C59) *)
Definition outputs_ok (no : nat) : Prop := no = 1%N \/ good_order no.

Section Field.
  Context (F : fieldType).
  Notation T := (Unum F).
  Context (ni no ns : nat) (g : mem T).
  Lemma predict_M f u s : exists s', prediction T ni ns g f u s = Ok s' /\ k_first s' = k_first s /\
    toM ns 1 (k_x s') = toM ns ns (k_A f) *m toM ns 1 (k_x s) + toM ns ni (k_B f) *m toM ni 1 u /\
    toM ns ns (k_P s') = toM ns ns (k_A f) *m toM ns ns (k_P s) *m (toM ns ns (k_A f))^T + toM ns ns (k_GQG f).
  Proof.
    have [a [Ea Ha]] := mul_M ns ns 1 (k_A f) (k_x s) g. have [b [Eb Hb]] := mul_M ns ni 1 (k_B f) u g. have [x [Ex Hx]] := add_M ns 1 a b g.
    have [c [Ec Hc]] := mul_M ns ns ns (k_A f) (k_P s) g. have [d [Ed Hd]] := transpose_M ns ns (k_A f) g. have [e [Ee He]] := mul_M ns ns ns c d g. have [p [Ep Hp]] := add_M ns ns e (k_GQG f) g.
    exists (KalmanModel.Build_state T x p (k_first s)). rewrite /prediction Ea /bind Eb Ex Ec Ed Ee Ep. split; first by []. split; first by []. split; cbn [k_x k_P].
    - by rewrite Hx Ha Hb.
    - by rewrite Hp He Hc Hd.
  Qed.
  Definition innov (f : KalmanModel.filter T) (P : mem T) : 'M[F]_no := toM no ns (k_C f) *m toM ns ns P *m (toM no ns (k_C f))^T + toM no no (k_R f).
  Lemma inverse_M S : outputs_ok no -> \det (toM no no S) != 0 -> exists r, inverse T no g S = Ok r /\ toM no no r = invmx (toM no no S).
  Proof.
    rewrite /inverse. move=> H Hd. have U : toM no no S \in unitmx by rewrite unitmxE unitfE. case: (PeanoNat.Nat.eqb_spec no 1) => [E|E].
    - eexists. split; first by []. move: Hd U. rewrite E => Hd U. apply/(can_inj (mulKmx U)). rewrite mulmxV //. apply/matrixP=> i j. rewrite !ord1 !mxE big_ord_recl big_ord0 !mxE /= /one_inv /= mul1r addr0.
      rewrite divff //. move: Hd. by rewrite det_mx11 mxE.
    - case: H => [//|H]. have [r [Er [H1 _]]] := inv_good g H Hd. exists r; split=> //. apply/(can_inj (mulKmx U)). by rewrite H1 mulmxV.
  Qed.
  Lemma gain_M f P : outputs_ok no -> \det (innov f P) != 0 -> exists K, gain T no ns g f P = Ok K /\ toM ns no K = toM ns ns P *m (toM no ns (k_C f))^T *m invmx (innov f P).
  Proof.
    move=> Ho Hd. have [a [Ea Ha]] := mul_M no ns ns (k_C f) P g. have [b [Eb Hb]] := transpose_M no ns (k_C f) g. have [c [Ec Hc]] := mul_M no ns no a b g. have [S [ES HS]] := add_M no no c (k_R f) g.
    have [d [Ed Hd']] := mul_M ns ns no P b g. have I : toM no no S = innov f P by rewrite HS Hc Ha Hb. rewrite -I in Hd. have [r [Er Hr]] := inverse_M Ho Hd. have [K [EK HK]] := mul_M ns no no d r g.
    exists K. rewrite /gain Ea /bind Eb Ec ES Ed Er EK. split; first by []. by rewrite HK Hd' Hb Hr I.
  Qed.
  Lemma correct_M f y u s : outputs_ok no -> k_first s = false -> \det (innov f (k_P s)) != 0 -> exists s' K, correction T ni no ns g f y u s = Ok s' /\ k_first s' = false /\
    K = toM ns ns (k_P s) *m (toM no ns (k_C f))^T *m invmx (innov f (k_P s)) /\
    toM ns 1 (k_x s') = toM ns 1 (k_x s) + K *m (toM no 1 y - toM no ns (k_C f) *m toM ns 1 (k_x s) - toM no ni (k_D f) *m toM ni 1 u) /\
    toM ns ns (k_P s') = (1%:M - K *m toM no ns (k_C f)) *m toM ns ns (k_P s).
  Proof.
    move=> Ho Hf Hd. have [K [EK HK]] := gain_M Ho Hd. have [a [Ea Ha]] := mul_M no ns 1 (k_C f) (k_x s) g. have [b [Eb Hb]] := sub_M no 1 y a g. have [c [Ec Hc]] := mul_M no ni 1 (k_D f) u g.
    have [d [Ed Hd']] := sub_M no 1 b c g. have [e [Ee He]] := mul_M ns no 1 K d g. have [x [Ex Hx]] := add_M ns 1 (k_x s) e g. have [i [Ei Hi]] := @eye_M F ns g. have [h [Eh Hh]] := mul_M ns no ns K (k_C f) g.
    have [l [El Hl]] := sub_M ns ns i h g. have [p [Ep Hp]] := mul_M ns ns ns l (k_P s) g.
    exists (KalmanModel.Build_state T x p false), (toM ns no K). rewrite /correction Hf EK /bind Ea Eb Ec Ed Ee Ex Ei Eh El Ep. split; first by []. split; first by []. split; first exact: HK. split; cbn [k_x k_P].
    - by rewrite Hx He Hd' Hb Ha Hc.
    - by rewrite Hp Hl Hi Hh.
  Qed.
  Lemma first_M f y u s : k_first s = true -> correction T ni no ns g f y u s = Ok (KalmanModel.Build_state T (k_x s) (k_P s) false).
  Proof. by rewrite /correction => ->. Qed.
  Lemma construct_M nr A B C D G Q R P x : exists f, construct T ns nr g A B C D G Q R P x = Ok (f, KalmanModel.Build_state T x P true) /\
    k_A f = A /\ k_B f = B /\ k_C f = C /\ k_D f = D /\ k_R f = R /\ toM ns ns (k_GQG f) = toM ns nr G *m toM nr nr Q *m (toM ns nr G)^T.
  Proof.
    have [a [Ea Ha]] := mul_M ns nr nr G Q g. have [b [Eb Hb]] := transpose_M ns nr G g. have [c [Ec Hc]] := mul_M ns nr ns a b g.
    exists (KalmanModel.Build_filter T A B C D c R). rewrite /construct Ea /bind Eb Ec. split; first by []. cbn. do 5 split=> //. by rewrite Hc Ha Hb.
  Qed.
  Lemma default_M nr A B C G Q R : exists f s, construct_default T ni no ns nr g A B C G Q R = Ok (f, s) /\
    toM ns 1 (k_x s) = 0 /\ toM ns ns (k_P s) = 1%:M /\ toM no ni (k_D f) = 0 /\ k_first s = true /\
    k_A f = A /\ k_B f = B /\ k_C f = C /\ k_R f = R /\ toM ns ns (k_GQG f) = toM ns nr G *m toM nr nr Q *m (toM ns nr G)^T.
  Proof.
    have [d [Ed Hd]] := @zero_M F no ni g. have [x [Ex Hx]] := @zero_M F ns 1 g. have [p [Ep Hp]] := @eye_M F ns g.
    have [f [Ef [H1 [H2 [H3 [H4 [H5 H6]]]]]]] := construct_M nr A B C d G Q R p x.
    exists f, (KalmanModel.Build_state T x p true). rewrite /construct_default Ed /bind Ex Ep. split; first exact: Ef. cbn [k_x k_P k_first].
    rewrite H4. do 4 split=> //.
  Qed.
End Field.

Section Algebra.
  Context (F : fieldType) (n m : nat).
  Implicit Types (P : 'M[F]_n) (C : 'M[F]_(m, n)) (R S : 'M[F]_m).
  Lemma inv_sym S : symmetric S -> S \in unitmx -> symmetric (invmx S).
  Proof. rewrite /symmetric => H U. by rewrite trmx_inv H. Qed.
  (** (1 - K C) P = (1 - K C) P (1 - K C)^T + K R K^T for the gain K *)
  Lemma joseph P C R K : symmetric P -> K *m (C *m P *m C^T + R) = P *m C^T ->
    (1%:M - K *m C) *m P = (1%:M - K *m C) *m P *m (1%:M - K *m C)^T + K *m R *m K^T.
  Proof.
    move=> HP HK. set L := 1%:M - K *m C.
    have E1 : L^T = 1%:M - C^T *m K^T by rewrite /L linearB /= trmx1 trmx_mul.
    have E2 : L *m P *m C^T = K *m R. { rewrite -mulmxA /L mulmxBl mul1mx -{1}HK mulmxDr !mulmxA. by rewrite addrAC subrr add0r. }
    by rewrite E1 mulmxBr mulmx1 mulmxA E2 subrK.
  Qed.
  Lemma sym_sandwich k (P : 'M[F]_n) (A : 'M[F]_(k, n)) : symmetric P -> symmetric (A *m P *m A^T).
  Proof. rewrite /symmetric => H. by rewrite !trmx_mul trmxK H mulmxA. Qed.
  Lemma sym_add k (A B : 'M[F]_k) : symmetric A -> symmetric B -> symmetric (A + B).
  Proof. rewrite /symmetric => HA HB. by rewrite linearD /= HA HB. Qed.
End Algebra.

Section Real.
  Context (F : realFieldType).
  Lemma psd_sandwich n k (P : 'M[F]_n) (A : 'M[F]_(k, n)) : psd P -> psd (A *m P *m A^T).
  Proof. move=> H v. move: (H (v *m A)). by rewrite trmx_mul !mulmxA. Qed.
  Lemma psd_add n (A B : 'M[F]_n) : psd A -> psd B -> psd (A + B).
  Proof. move=> HA HB v. rewrite mulmxDr mulmxDl mxE. exact: addr_ge0. Qed.
  Lemma pd_psd n (A : 'M[F]_n) : pd A -> psd A.
  Proof. move=> H v. case: (eqVneq v 0) => [->|Hv]; last by apply/ltW/H. by rewrite !mul0mx mxE. Qed.
  Lemma pd_add n (A B : 'M[F]_n) : psd A -> pd B -> pd (A + B).
  Proof. move=> HA HB v Hv. rewrite mulmxDr mulmxDl mxE. apply: ltr_paddl; [exact: HA|exact: HB]. Qed.
  Lemma pd_unit n (A : 'M[F]_n) : pd A -> \det A != 0.
  Proof. move=> H. apply/negP=> /det0P [v Hv E]. move: (H v Hv). by rewrite E mul0mx mxE ltxx. Qed.
  Lemma psd_inv n (S : 'M[F]_n) : symmetric S -> psd S -> S \in unitmx -> psd (invmx S).
  Proof. move=> Hs H U. have -> : invmx S = invmx S *m S *m (invmx S)^T by rewrite (inv_sym Hs U) mulVmx // mul1mx. exact: psd_sandwich. Qed.

  Context (ni no ns : nat) (g : mem (Unum F)).
  Notation T := (Unum F).
  Definition good_cov (P : mem T) : Prop := symmetric (toM ns ns P) /\ psd (toM ns ns P).
  Definition good_filter (f : KalmanModel.filter T) : Prop :=
    symmetric (toM ns ns (k_GQG f)) /\ psd (toM ns ns (k_GQG f)) /\ symmetric (toM no no (k_R f)) /\ psd (toM no no (k_R f)).
  Lemma predict_cov f u s : good_filter f -> good_cov (k_P s) -> exists s', prediction T ni ns g f u s = Ok s' /\ good_cov (k_P s').
  Proof.
    move=> [Gs [Gp _]] [Ps Pp]. have [s' [E [_ [_ HP]]]] := predict_M ni ns g f u s. exists s'; split=> //. rewrite /good_cov HP. split.
    - by apply: sym_add=> //; apply: sym_sandwich.
    - by apply: psd_add=> //; apply: psd_sandwich.
  Qed.
  Lemma innov_sym f P : good_filter f -> good_cov P -> symmetric (innov no ns f P) /\ psd (innov no ns f P).
  Proof. move=> [_ [_ [Rs Rp]]] [Ps Pp]. split; [by apply: sym_add=> //; apply: sym_sandwich|by apply: psd_add=> //; apply: psd_sandwich]. Qed.
  (** A correction keeps the covariance symmetric and positive semidefinite, and does not increase it in any direction. *)
  Lemma correct_cov f y u s : outputs_ok no -> good_filter f -> good_cov (k_P s) -> \det (innov no ns f (k_P s)) != 0 ->
    exists s', correction T ni no ns g f y u s = Ok s' /\ good_cov (k_P s') /\ psd (toM ns ns (k_P s) - toM ns ns (k_P s')).
  Proof.
    move=> Ho Hf Hc Hd. case E1: (k_first s).
    { eexists. split; first exact: first_M. split=> //=. rewrite subrr => v. by rewrite mulmx0 mul0mx mxE. }
    have [s' [K [E [_ [HK [_ HP]]]]]] := correct_M ni g y u Ho E1 Hd. exists s'; split=> //. move: (Hc) => [Ps Pp]. have [Ss Sp] := innov_sym Hf Hc. have U : innov no ns f (k_P s) \in unitmx by rewrite unitmxE unitfE.
    set P := toM ns ns (k_P s) in HK HP Ps Pp *. set C := toM no ns (k_C f) in HK HP *. set S := innov no ns f (k_P s) in HK Ss Sp U *.
    have KS : K *m S = P *m C^T by rewrite HK mulmxKV.
    have J := @joseph F ns no P C (toM no no (k_R f)) K Ps KS. move: (Hf) => [_ [_ [Rs Rp]]].
    have D : P - toM ns ns (k_P s') = P *m C^T *m invmx S *m (P *m C^T)^T. { by rewrite HP mulmxBl mul1mx subKr HK trmx_mul trmxK Ps !mulmxA. }
    split.
    - rewrite /good_cov HP J. split; [by apply: sym_add; apply: sym_sandwich|by apply: psd_add; apply: psd_sandwich].
    - rewrite D. apply: psd_sandwich. exact: psd_inv.
  Qed.
  (** All histories *)
  Lemma run_cov f es : forall s, outputs_ok no -> good_filter f -> pd (toM no no (k_R f)) -> good_cov (k_P s) ->
    exists s', run T ni no ns g f es s = Ok s' /\ good_cov (k_P s').
  Proof.
    elim: es => [|e es IH] s Ho Hf HR Hc; first by exists s. cbn [run]. case: e => [u|y u]; cbn [step].
    - have [s1 [E1 H1]] := predict_cov u Hf Hc. rewrite E1 /bind. exact: IH.
    - have Hd : \det (innov no ns f (k_P s)) != 0. { apply: pd_unit. apply: pd_add=> //. apply: psd_sandwich. exact: (proj2 Hc). }
      have [s1 [E1 [H1 _]]] := correct_cov y u Ho Hf Hc Hd. rewrite E1 /bind. exact: IH.
  Qed.
  Lemma construct_cov nr A B C D G Q R P x : symmetric (toM nr nr Q) -> psd (toM nr nr Q) -> symmetric (toM no no R) -> pd (toM no no R) ->
    exists f, construct T ns nr g A B C D G Q R P x = Ok (f, KalmanModel.Build_state T x P true) /\ good_filter f /\ pd (toM no no (k_R f)).
  Proof.
    move=> Qs Qp Rs Rp. have [f [E [_ [_ [_ [_ [HR HG]]]]]]] := construct_M ns g nr A B C D G Q R P x. exists f; split=> //. rewrite /good_filter HG HR. split=> //. split; first exact: sym_sandwich. split; first exact: psd_sandwich. split=> //. exact: pd_psd.
  Qed.
  Lemma history_cov nr A B C D G Q R P x es : outputs_ok no -> symmetric (toM nr nr Q) -> psd (toM nr nr Q) -> symmetric (toM no no R) -> pd (toM no no R) -> symmetric (toM ns ns P) -> psd (toM ns ns P) ->
    exists f s0 s, construct T ns nr g A B C D G Q R P x = Ok (f, s0) /\ run T ni no ns g f es s0 = Ok s /\ symmetric (toM ns ns (k_P s)) /\ psd (toM ns ns (k_P s)).
  Proof.
    move=> Ho Qs Qp Rs Rp Ps Pp. have [f [E [Hf HR]]] := construct_cov A B C D G P x Qs Qp Rs Rp. have [|s [Es [Hs1 Hs2]]] := @run_cov f es (KalmanModel.Build_state T x P true) Ho Hf HR. { by []. }
    by exists f, (KalmanModel.Build_state T x P true), s.
  Qed.
End Real.

(** ** The estimation error: estimate minus true state, for a system without noise *)
Section Error.
  Context (F : fieldType) (ni no ns : nat) (g : mem (Unum F)).
  Notation T := (Unum F).
  Notation A f := (toM ns ns (k_A f)). Notation B f := (toM ns ni (k_B f)). Notation C f := (toM no ns (k_C f)). Notation D f := (toM no ni (k_D f)).
  Lemma predict_error f u s (z : 'cV[F]_ns) : exists s', prediction T ni ns g f u s = Ok s' /\ k_first s' = k_first s /\
    toM ns 1 (k_x s') - (A f *m z + B f *m toM ni 1 u) = A f *m (toM ns 1 (k_x s) - z).
  Proof. have [s' [E [H1 [H2 _]]]] := predict_M ni ns g f u s. exists s'; split=> //. split=> //. by rewrite H2 opprD addrACA subrr addr0 mulmxBr. Qed.
  (** Whatever the gain is, right or wrong *)
  Lemma correct_error f y u s s' (z : 'cV[F]_ns) : correction T ni no ns g f y u s = Ok s' -> toM no 1 y = C f *m z + D f *m toM ni 1 u ->
    k_first s' = false /\ exists K : 'M[F]_(ns, no), toM ns 1 (k_x s') - z = (1%:M - K *m C f) *m (toM ns 1 (k_x s) - z).
  Proof.
    move=> + Hy. case E1: (k_first s).
    - rewrite first_M // => -[<-] /=. split=> //. exists 0. by rewrite mul0mx subr0 mul1mx.
    - rewrite /correction E1. case: (gain T no ns g f (k_P s)) => [K| |] //. rewrite {1}/bind.
      have [a [Ea Ha]] := mul_M no ns 1 (k_C f) (k_x s) g. have [b [Eb Hb]] := sub_M no 1 y a g. have [c [Ec Hc]] := mul_M no ni 1 (k_D f) u g.
      have [d [Ed Hd']] := sub_M no 1 b c g. have [e [Ee He]] := mul_M ns no 1 K d g. have [x [Ex Hx]] := add_M ns 1 (k_x s) e g. have [i [Ei Hi]] := @eye_M F ns g. have [h [Eh Hh]] := mul_M ns no ns K (k_C f) g.
      have [l [El Hl]] := sub_M ns ns i h g. have [p [Ep Hp]] := mul_M ns ns ns l (k_P s) g. rewrite Ea /bind Eb Ec Ed Ee Ex Ei Eh El Ep => -[<-]. cbn [k_first k_x]. split=> //. exists (toM ns no K).
      rewrite Hx He Hd' Hb Ha Hc Hy.
      have -> : C f *m z + D f *m toM ni 1 u - C f *m toM ns 1 (k_x s) - D f *m toM ni 1 u = - (C f *m (toM ns 1 (k_x s) - z)) by rewrite mulmxBr opprB [X in X - _ = _]addrAC addrK.
      by rewrite mulmxN mulmxBl mul1mx -mulmxA addrAC.
  Qed.
  (** A system without noise and the filter side by side; every measurement is that of the system. *)
  Definition follows (f : KalmanModel.filter T) (z : 'cV[F]_ns) (e : event T) : 'cV[F]_ns := match e with Predict u => A f *m z + B f *m toM ni 1 u | Correct _ _ => z end.
  Definition measured (f : KalmanModel.filter T) (z : 'cV[F]_ns) (e : event T) : Prop := match e with Predict _ => True | Correct y u => toM no 1 y = C f *m z + D f *m toM ni 1 u end.
  Fixpoint exact_history (f : KalmanModel.filter T) (z : 'cV[F]_ns) (es : seq (event T)) : Prop :=
    match es with [::] => True | e :: es => measured f z e /\ exact_history f (follows f z e) es end.
  Lemma run_exact f es : forall s z s', run T ni no ns g f es s = Ok s' -> exact_history f z es -> toM ns 1 (k_x s) = z ->
    toM ns 1 (k_x s') = foldl (follows f) z es.
  Proof.
    elim: es => [|e es IH] s z s'; cbn [run].
    - by move=> [<-].
    - move=> H [Hm Hh] Hz. case E: (step T ni no ns g f e s) H => [s1| |] // H. apply: (IH s1 _ s' H Hh).
      case: e E Hm {Hh H} => [u|y u]; cbn [step measured follows] => E Hm.
      + have [s2 [E2 [_ H2]]] := predict_error f u s z. move: E2. rewrite E => -[W]. subst s2. move: H2. rewrite Hz subrr mulmx0 => /eqP. by rewrite subr_eq0 => /eqP.
      + have [_ [K H2]] := correct_error E Hm. move: H2. rewrite Hz subrr mulmx0 => /eqP. by rewrite subr_eq0 => /eqP.
  Qed.
End Error.

(** ** Statements in plain terms *)
Section Plain.
  Context (F : realFieldType) (ni no ns : nat) (g : mem (Unum F)) (f : KalmanModel.filter (Unum F)) (y u : mem (Unum F)) (s : state (Unum F)).
  Notation T := (Unum F).
  Notation P := (toM ns ns (k_P s)). Notation C := (toM no ns (k_C f)). Notation R := (toM no no (k_R f)).
  Lemma correct_cov_plain : outputs_ok no -> symmetric R -> psd R -> symmetric P -> psd P -> symmetric (toM ns ns (k_GQG f)) -> psd (toM ns ns (k_GQG f)) -> \det (C *m P *m C^T + R) != 0 ->
    exists s', correction T ni no ns g f y u s = Ok s' /\ symmetric (toM ns ns (k_P s')) /\ psd (toM ns ns (k_P s')).
  Proof. move=> Ho Rs Rp Ps Pp Gs Gp Hd. have [s' [E [[H1 H2] _]]] := @correct_cov F ni no ns g f y u s Ho (conj Gs (conj Gp (conj Rs Rp))) (conj Ps Pp) Hd. by exists s'. Qed.
  Lemma correct_decreases : outputs_ok no -> symmetric R -> psd R -> symmetric P -> psd P -> symmetric (toM ns ns (k_GQG f)) -> psd (toM ns ns (k_GQG f)) -> \det (C *m P *m C^T + R) != 0 ->
    exists s', correction T ni no ns g f y u s = Ok s' /\ forall v : 'rV[F]_ns, (v *m toM ns ns (k_P s') *m v^T) 0 0 <= (v *m P *m v^T) 0 0.
  Proof.
    move=> Ho Rs Rp Ps Pp Gs Gp Hd. have [s' [E [_ H]]] := @correct_cov F ni no ns g f y u s Ho (conj Gs (conj Gp (conj Rs Rp))) (conj Ps Pp) Hd. exists s'. split=> // v.
    move: (H v). by rewrite mulmxBr mulmxBl !mxE subr_ge0.
  Qed.
  Lemma correct_optimal : outputs_ok no -> k_first s = false -> symmetric R -> psd R -> symmetric P -> psd P -> \det (C *m P *m C^T + R) != 0 ->
    exists s', correction T ni no ns g f y u s = Ok s' /\ forall (L : 'M[F]_(ns, no)) (v : 'rV[F]_ns),
      (v *m toM ns ns (k_P s') *m v^T) 0 0 <= (v *m ((1%:M - L *m C) *m P *m (1%:M - L *m C)^T + L *m R *m L^T) *m v^T) 0 0.
  Proof.
    move=> Ho Hf Rs Rp Ps Pp Hd. have [s' [K [E [_ [HK [_ HP]]]]]] := correct_M ni g y u Ho Hf Hd. exists s'. split=> // L v.
    have U : innov no ns f (k_P s) \in unitmx by rewrite unitmxE unitfE. set S := innov no ns f (k_P s) in HK U.
    have KS : K *m S = P *m C^T by rewrite HK mulmxKV.
    have Ss : symmetric S by apply: sym_add=> //; apply: sym_sandwich.
    have Sp : psd S by apply: psd_add=> //; apply: psd_sandwich.
    have CP : C *m P = S *m K^T. { move: (congr1 trmx KS). by rewrite !trmx_mul Ss trmxK Ps. }
    have J : (1%:M - L *m C) *m P *m (1%:M - L *m C)^T + L *m R *m L^T = toM ns ns (k_P s') + (L - K) *m S *m (L - K)^T.
    { have TB p q (M N : 'M[F]_(p, q)) : (M - N)^T = M^T - N^T by exact: linearB.
      rewrite HP !TB trmx1 trmx_mul !mulmxBl !mulmxBr !mul1mx !mulmx1 !mulmxA -KS.
      have -> : K *m C *m P = K *m S *m K^T by rewrite -mulmxA CP mulmxA.
      have -> : L *m C *m P = L *m S *m K^T by rewrite -mulmxA CP mulmxA.
      have -> : L *m S *m K^T *m C^T *m L^T = L *m C *m P *m C^T *m L^T by rewrite -(mulmxA L C P) CP !mulmxA.
      have E1 : L *m S *m L^T = L *m C *m P *m C^T *m L^T + L *m R *m L^T by rewrite /S /innov mulmxDr mulmxDl !mulmxA.
      rewrite E1. set a := L *m C *m P *m C^T *m L^T. set b := L *m R *m L^T. set c := L *m S *m K^T. set d := K *m S *m L^T. set e := K *m S *m K^T.
      rewrite (opprB c a) (opprB d e) [a + b - c + _]addrC [RHS]addrA [X in _ = X + _]addrA subrK -addrA. congr (_ + _). by rewrite addrAC. }
    rewrite J mulmxDr mulmxDl [X in _ <= X]mxE ler_addl. exact: psd_sandwich.
  Qed.
End Plain.
Lemma first_ignored (F : fieldType) ni no ns (g : mem (Unum F)) f y u s : k_first s = true ->
  exists s', correction (Unum F) ni no ns g f y u s = Ok s' /\ k_x s' = k_x s /\ k_P s' = k_P s /\ k_first s' = false.
Proof. move=> H. rewrite first_M //. by eexists. Qed.

Lemma pd_one n : pd (1%:M : 'M[rat]_n).
Proof.
  move=> v Hv. rewrite mulmx1 mxE. under eq_bigr do rewrite mxE -expr2. rewrite lt_def sumr_ge0 ?andbT; last by move=> i _; exact: sqr_ge0.
  apply: contra Hv => /eqP Hs. apply/eqP/rowP=> i. rewrite mxE. have := psumr_eq0P _ Hs => H1. have := H1 (fun j _ => sqr_ge0 _) i isT. move/eqP. by rewrite sqrf_eq0 => /eqP.
Qed.
Lemma kalman_example : symmetric (@toM rat_realFieldType 2 2 (fun i => if (i == 1)%N || (i == 2)%N then 1 else 2%:R : rat)) /\ psd (1%:M : 'M[rat]_2) /\ pd (1%:M : 'M[rat]_2) /\ good_order 4.
Proof.
  split. { rewrite /symmetric. apply/matrixP=> -[[|[|//]] ?] [[|[|//]] ?]; by rewrite !mxE. }
  split; first exact/pd_psd/pd_one. split; first exact: pd_one. rewrite /good_order. right. by exists 2%N.
Qed.
Definition example_events : seq (event (Unum rat_realFieldType)) := [:: Predict (T := Unum rat_realFieldType) (fun _ => 1%R : rat); Correct (T := Unum rat_realFieldType) (fun _ => 2%:R : rat) (fun _ => 0 : rat); Correct (T := Unum rat_realFieldType) (fun _ => 2%:R : rat) (fun _ => 0 : rat)].
Lemma exact_example : exists (f : KalmanModel.filter (Unum rat_realFieldType)) s s' (z : 'cV[rat]_2), exact_history 1 1 f z example_events /\ toM 2 1 (k_x s) = z /\
  run (Unum rat_realFieldType) 1 1 2 (fun _ => 0 : rat) f example_events s = Ok s'.
Proof.
  set T := Unum rat_realFieldType. pose f := KalmanModel.Build_filter T (fun i => if (i == 1)%N then 0 else 1 : rat) (fun i => if (i == 1)%N then 1 else 0 : rat) (fun i => if (i == 0)%N then 1 else 0 : rat) (fun _ => 0 : rat) (fun _ => 0 : rat) (fun _ => 1 : rat).
  pose s := KalmanModel.Build_state T (fun _ => 1 : rat) (fun i => if (i == 0)%N || (i == 3)%N then 1 else 0 : rat) true.
  have E : toM 2 2 (k_P s) = 1%:M :> 'M[rat]_2 by apply/matrixP=> -[[|[|//]] ?] [[|[|//]] ?]; rewrite !mxE.
  have ER : toM 1 1 (k_R f) = 1%:M :> 'M[rat]_1 by apply/matrixP=> i j; rewrite !ord1 !mxE.
  have EG : toM 2 2 (k_GQG f) = 0 :> 'M[rat]_2 by apply/matrixP=> i j; rewrite !mxE.
  have Gf : good_filter 1 2 f. { rewrite /good_filter ER EG /symmetric trmx0 trmx1. split=> //. split; first by move=> v; rewrite mulmx0 mul0mx mxE. split=> //. exact/pd_psd/pd_one. }
  have Gc : good_cov 2 (k_P s). { rewrite /good_cov E /symmetric trmx1. split=> //. exact/pd_psd/pd_one. }
  have Pr : pd (toM 1 1 (k_R f)) by rewrite ER; exact: pd_one.
  have [s' [Hr _]] := @run_cov _ 1 1 2 (fun _ => 0 : rat) f example_events s (or_introl erefl) Gf Pr Gc.
  exists f, s, s', (toM 2 1 (k_x s)). split; last exact: (conj erefl Hr). clear Hr.
  have M : @toM rat_realFieldType 1 1 (fun _ => 2%:R : rat) = toM 1 2 (k_C f) *m (toM 2 2 (k_A f) *m toM 2 1 (k_x s) + toM 2 1 (k_B f) *m @toM rat_realFieldType 1 1 (fun _ => 1 : rat)) + toM 1 1 (k_D f) *m @toM rat_realFieldType 1 1 (fun _ => 0 : rat) :> 'M[rat]_1.
  { apply/matrixP=> i j. rewrite !ord1 !mxE !big_ord_recl !big_ord0 !mxE !big_ord_recl !big_ord0 !mxE /=. by []. }
  exact: (conj I (conj M (conj M I))).
Qed.
