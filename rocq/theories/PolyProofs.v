(** Loops over coefficients. *)
From Verif Require Import Prelude Num MatModel MatProofs PolyModel.
Open Scope nat_scope.
Section Poly.
Context (T : num).
Notation mem := (mem T). Notation zero := (nofZ T 0%Z).
Lemma get_ok n (a : mem) i : i < n -> get T n a i = Ok (a i).
Proof. intros H. unfold get. apply Nat.ltb_lt in H. now rewrite H. Qed.
Lemma put_ok n (a : mem) i v : i < n -> put T n a i v = Ok (upd a i v).
Proof. intros H. unfold put. apply Nat.ltb_lt in H. now rewrite H. Qed.
(** A loop that writes element i in pass i. *)
Lemma fill_ok n (f : nat -> T) body g : (forall i c, i < n -> body i c = Ok (upd c i (f i))) -> exists r : mem, loop n body g = Ok r /\ forall i, i < n -> r i = f i.
Proof.
  intros H. apply (loop_inv (fun k (c : mem) => forall i, i < k -> c i = f i)); [intros i Hi; lia|].
  intros j c Hj Hc. exists (upd c j (f j)). split; [now apply H|]. intros i Hi. unfold upd. destruct (Nat.eqb_spec i j) as [->|]; [reflexivity|apply Hc; lia].
Qed.
Lemma zero_ok o g : exists r : mem, p_zero T o g = Ok r /\ forall i, i <= o -> r i = zero.
Proof. destruct (fill_ok (o + 1) (fun _ => zero) (fun i c => put T (o + 1) c i zero) g) as (r & E & H); [intros; now apply put_ok|]. exists r. split; [exact E|]. intros; apply H; lia. Qed.
Lemma vector_ok o v g : exists r : mem, p_vector T o v g = Ok r /\ forall i, i <= o -> r i = nth i v zero.
Proof.
  destruct (fill_ok (o + 1) (fun i => nth i v zero) (fun i c => match nth_error v i with Some x => put T (o + 1) c i x | None => put T (o + 1) c i zero end) g) as (r & E & H).
  - intros i c Hi. destruct (nth_error v i) as [x|] eqn:N; rewrite put_ok by exact Hi; repeat f_equal; symmetry; [now apply nth_error_nth|now apply nth_overflow, nth_error_None].
  - exists r. split; [exact E|]. intros; apply H; lia.
Qed.
Lemma convert_ok o r (a g : mem) : exists c : mem, p_convert T o r a g = Ok c /\ forall i, i <= o -> c i = if i <=? r then a i else zero.
Proof.
  destruct (fill_ok (o + 1) (fun i => if i <=? r then a i else zero) (fun i c => if i <? r + 1 then bind (get T (r + 1) a i) (put T (o + 1) c i) else put T (o + 1) c i zero) g) as (c & E & H).
  - intros i c Hi. destruct (Nat.ltb_spec i (r + 1)), (Nat.leb_spec i r); try lia; [rewrite get_ok by lia; cbn [bind]|]; now apply put_ok.
  - exists c. split; [exact E|]. intros; apply H; lia.
Qed.
Lemma scale_ok o (a : mem) k g : exists c : mem, p_scale T o a k g = Ok c /\ forall i, i <= o -> c i = nadd T zero (nmul T (a i) k).
Proof.
  unfold p_scale. destruct (zero_ok o g) as (z & E & Hz). rewrite E. cbn [bind].
  destruct (loop_inv (fun n (p : mem) => forall i, i <= o -> p i = if i <? n then nadd T zero (nmul T (a i) k) else zero)
    (fun i p => bind (get T (o + 1) p i) (fun z => bind (get T (o + 1) a i) (fun x => put T (o + 1) p i (nadd T z (nmul T x k))))) (o + 1) z) as (r & Er & Hr).
  - intros i Hi. now apply Hz.
  - intros j p Hj Hp. rewrite !get_ok by exact Hj. cbn [bind]. rewrite put_ok by exact Hj. eexists. split; [reflexivity|]. intros i Hi. unfold upd. rewrite (Hp j) by lia. rewrite Nat.ltb_irrefl.
    destruct (Nat.eqb_spec i j) as [->|]; [destruct (Nat.ltb_spec j (S j)); [reflexivity|lia]|]. rewrite Hp by exact Hi. destruct (Nat.ltb_spec i j), (Nat.ltb_spec i (S j)); try lia; reflexivity.
  - exists r. split; [exact Er|]. intros i Hi. rewrite Hr by exact Hi. destruct (Nat.ltb_spec i (o + 1)); [reflexivity|lia].
Qed.
Lemma max_spec x y : max x y = Nat.max x y.
Proof. unfold max. destruct (Nat.ltb_spec y x); lia. Qed.
Definition coef (o : nat) (a : mem) (i : nat) : option T := if i <=? o then Some (a i) else None.
Lemma add_ok o r (a b g : mem) : exists c : mem, p_add T o r a b g = Ok c /\ forall i, i <= Nat.max o r ->
  c i = match coef o a i, coef r b i with Some x, Some y => nadd T x y | Some x, None => x | None, Some y => y | None, None => zero end.
Proof.
  unfold p_add. destruct (zero_ok (max o r) g) as (z & E & Hz). rewrite E. cbn [bind]. clear E.
  destruct (fill_ok (max o r + 1) (fun i => match coef o a i, coef r b i with Some x, Some y => nadd T x y | Some x, None => x | None, Some y => y | None, None => zero end)
    (fun i p => if (i <? r + 1) && (i <? o + 1) then bind (get T (o + 1) a i) (fun x => bind (get T (r + 1) b i) (fun y => put T (max o r + 1) p i (nadd T x y)))
    else if i <? o + 1 then bind (get T (o + 1) a i) (put T (max o r + 1) p i)
    else if i <? r + 1 then bind (get T (r + 1) b i) (put T (max o r + 1) p i) else Ok p) z) as (c & E & H).
  - intros i c Hi. unfold coef. pose proof (max_spec o r). destruct (Nat.ltb_spec i (r + 1)), (Nat.ltb_spec i (o + 1)), (Nat.leb_spec i o), (Nat.leb_spec i r); try lia; cbn [andb]; rewrite ?get_ok by lia; cbn [bind]; now apply put_ok.
  - exists c. split; [exact E|]. intros i Hi. apply H. rewrite max_spec. lia.
Qed.
Lemma adds_ok o (a : mem) k : exists c : mem, p_adds T o a k = Ok c /\ c 0 = nadd T (a 0) k /\ forall i, i <> 0 -> c i = a i.
Proof.
  unfold p_adds. rewrite get_ok by lia. cbn [bind]. rewrite put_ok by lia. eexists. split; [reflexivity|]. split; [reflexivity|]. intros i Hi. unfold upd. destruct (Nat.eqb_spec i 0); [lia|reflexivity].
Qed.
(** The product: after the outer loop has done n rows, element k holds the sum of the terms a i * b (k - i) with i < n, added in that order. *)
Fixpoint conv (r : nat) (a b : nat -> T) (n k : nat) : T :=
  match n with O => zero | S n => if (n <=? k) && (k - n <=? r) then nadd T (conv r a b n k) (nmul T (a n) (b (k - n))) else conv r a b n k end.
Lemma mul_ok o r (a b g : mem) : exists c : mem, p_mul T o r a b g = Ok c /\ forall k, k <= o + r -> c k = conv r a b (o + 1) k.
Proof.
  unfold p_mul. destruct (zero_ok (o + r) g) as (z & E & Hz). rewrite E. cbn [bind]. clear E.
  apply (loop_inv (fun n (p : mem) => forall k, k <= o + r -> p k = conv r a b n k)).
  - intros k Hk. now apply Hz.
  - intros i p Hi Hp.
    destruct (loop_inv (fun m (q : mem) => forall k, k <= o + r -> q k = if (i <=? k) && (k - i <? m) then nadd T (conv r a b i k) (nmul T (a i) (b (k - i))) else conv r a b i k)
      (fun j p => bind (get T (o + r + 1) p (i + j)) (fun z => bind (get T (o + 1) a i) (fun x => bind (get T (r + 1) b j) (fun y => put T (o + r + 1) p (i + j) (nadd T z (nmul T x y)))))) (r + 1) p) as (q & Eq & Hq).
    + intros k Hk. rewrite andb_comm. cbn [andb Nat.ltb Nat.leb]. now apply Hp.
    + intros j q Hj Hq. rewrite (get_ok (o + r + 1)), !get_ok by lia. cbn [bind]. rewrite put_ok by lia. eexists. split; [reflexivity|]. intros k Hk. unfold upd.
      destruct (Nat.eqb_spec k (i + j)) as [->|Hne].
      * rewrite Hq by lia. replace (i + j - i) with j by lia. rewrite Nat.ltb_irrefl, andb_false_r. destruct (Nat.leb_spec i (i + j)); [|lia]. destruct (Nat.ltb_spec j (S j)); [|lia]. reflexivity.
      * rewrite Hq by lia. destruct (Nat.leb_spec i k); cbn [andb]; [|reflexivity]. destruct (Nat.ltb_spec (k - i) j), (Nat.ltb_spec (k - i) (S j)); try lia; reflexivity.
    + exists q. split; [exact Eq|]. intros k Hk. rewrite Hq by exact Hk. cbn [conv]. destruct (Nat.leb_spec i k); cbn [andb]; [|reflexivity]. destruct (Nat.ltb_spec (k - i) (r + 1)), (Nat.leb_spec (k - i) r); try lia; reflexivity.
Qed.
End Poly.
