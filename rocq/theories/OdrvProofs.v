(** Proofs about the ODrive over USB: packets, sequence numbers, requests, rounds, description. *)
From Coq Require Import List ZArith Bool Lia.
From Verif Require Import Prelude OdrvModel OdrvSpec.
Import List ListNotations.
Open Scope Z_scope.

(** ** Bits *)
Lemma land255 : forall v, Z.land v 255 = v mod 256.
Proof. intros v. change 255 with (Z.ones 8). now rewrite Z.land_ones by lia. Qed.
Lemma land32767 : forall v, Z.land v 32767 = v mod 32768.
Proof. intros v. change 32767 with (Z.ones 15). now rewrite Z.land_ones by lia. Qed.
Lemma shr : forall v n, 0 <= n -> Z.shiftr v n = v / 2 ^ n.
Proof. intros v n H. now apply Z.shiftr_div_pow2. Qed.
Lemma le2_spec : forall v, le2 v = [v mod 256; v / 256 mod 256].
Proof. intros v. unfold le2. rewrite !land255, shr by lia. reflexivity. Qed.
Lemma le4_spec : forall v, le4 v = four v.
Proof. intros v. unfold le4, four. rewrite !land255, !shr by lia. reflexivity. Qed.
Lemma lor_bit_set : forall x k, 0 <= k -> Z.odd (x / 2 ^ k) = true -> Z.lor x (2 ^ k) = x.
Proof.
  intros x k K O. apply Z.bits_inj'. intros n N. rewrite Z.lor_spec. destruct (Z.eq_dec n k) as [->|D].
  - rewrite Z.testbit_odd, shr, O by exact K. reflexivity.
  - rewrite Z.pow2_bits_false by auto. apply orb_false_r.
Qed.
Lemma lor_bit_clear : forall x k, 0 <= k -> Z.odd (x / 2 ^ k) = false -> Z.lor x (2 ^ k) = x + 2 ^ k.
Proof.
  intros x k K O. assert (L : Z.land x (2 ^ k) = 0).
  { apply Z.bits_inj'. intros n N. rewrite Z.land_spec, Z.bits_0. destruct (Z.eq_dec n k) as [->|D].
    - rewrite Z.testbit_odd, shr, O by exact K. reflexivity.
    - rewrite Z.pow2_bits_false by auto. apply andb_false_r. }
  rewrite Z.add_nocarry_lxor by exact L. symmetry. now apply Z.lxor_lor.
Qed.
Lemma ack_bit : forall e, short e -> Z.lor e 32768 = e + 32768.
Proof.
  intros e H. unfold short in H. apply (lor_bit_clear e 15); [lia|]. rewrite Z.div_small by (change (2 ^ 15) with 32768; lia). reflexivity.
Qed.

(** ** Packets *)
Lemma parse_app : forall a b c d e f body x y,
  parse ([a; b] ++ [c; d] ++ [e; f] ++ body ++ [x; y]) = Some (a + 256 * b, c + 256 * d, e + 256 * f, body, x + 256 * y).
Proof.
  intros. cbn [app parse]. rewrite rev_app_distr. cbn [rev app]. now rewrite rev_involutive.
Qed.
Lemma two : forall v, 0 <= v < 65536 -> v mod 256 + 256 * (v / 256 mod 256) = v.
Proof.
  intros v H. rewrite (Z.mod_small (v / 256)) by (split; [apply Z.div_pos; lia|apply Z.div_lt_upper_bound; lia]).
  pose proof (Z_div_mod_eq_full v 256). lia.
Qed.
Lemma packet_parsed : forall s e n a input, short s -> short e -> short n ->
  parse (packet s (Z.lor e 32768) n a input) =
  Some (s, e + 32768, n, match a with Some a => four a | None => [] end ++ input, if e =? 0 then 1 else 39744).
Proof.
  intros s e n a input S E N. unfold packet. rewrite ack_bit by exact E. unfold short in *.
  assert (C : Z.land (e + 32768) 32767 = e).
  { rewrite land32767. rewrite <- (Z.mod_small e 32768) at 2 by exact E.
    replace (e + 32768) with (e + 1 * 32768) by lia. apply Z.mod_add. lia. }
  rewrite C, !le2_spec.
  replace (match a with Some x => le4 x | None => [] end) with (match a with Some x => four x | None => [] end)
    by (destruct a; [symmetry; apply le4_spec|reflexivity]).
  rewrite (app_assoc (match a with Some x => four x | None => [] end)), parse_app, !two by lia.
  f_equal. f_equal. destruct (e =? 0); reflexivity.
Qed.
Lemma four_back : forall a, 0 <= a < 2 ^ 32 -> num4 (four a) = a.
Proof.
  intros a H. change (2 ^ 32) with 4294967296 in H. unfold num4, four.
  rewrite (Z.mod_small (a / 16777216)) by (split; [apply Z.div_pos; lia|apply Z.div_lt_upper_bound; lia]).
  pose proof (Z_div_mod_eq_full a 256). pose proof (Z_div_mod_eq_full (a / 256) 256). pose proof (Z_div_mod_eq_full (a / 65536) 256).
  replace (a / 65536) with (a / 256 / 256) in * by (rewrite Z.div_div; reflexivity || lia).
  replace (a / 16777216) with (a / 256 / 256 / 256) in * by (rewrite !Z.div_div; reflexivity || lia). lia.
Qed.
Lemma packet_bytes : forall s e n a input, Forall (fun b => 0 <= b < 256) input ->
  Forall (fun b => 0 <= b < 256) (packet s e n a input).
Proof.
  intros s e n a input H. assert (M : forall v, 0 <= v mod 256 < 256) by (intros; apply Z.mod_pos_bound; lia).
  unfold packet. rewrite !le2_spec, !Forall_app.
  repeat split; try exact H; try (repeat constructor; apply M).
  destruct a as [a|]; [rewrite le4_spec; unfold four; repeat constructor; apply M|constructor].
Qed.

(** ** Sequence numbers *)
Lemma next_seq_form : forall a b, 0 <= a < 128 -> 0 <= b < 128 ->
  next_seq (256 * a + 128 + b) = if b =? 127 then if a =? 127 then 128 else 256 * (a + 1) + 128 else 256 * a + 128 + (b + 1).
Proof.
  intros a b A B. unfold next_seq. rewrite land32767. destruct (Z.eqb_spec b 127) as [->|NB].
  - destruct (Z.eqb_spec a 127) as [->|NA]; [reflexivity|].
    rewrite Z.mod_small by lia. replace (256 * a + 128 + 127 + 1) with (256 * (a + 1)) by lia.
    apply (lor_bit_clear _ 7); [lia|]. change (2 ^ 7) with 128. replace (256 * (a + 1)) with (2 * (a + 1) * 128) by lia.
    rewrite Z.div_mul by lia. rewrite Z.odd_mul. reflexivity.
  - rewrite Z.mod_small by lia. replace (256 * a + 128 + b + 1) with (256 * a + 128 + (b + 1)) by lia.
    apply (lor_bit_set _ 7); [lia|]. change (2 ^ 7) with 128. replace (256 * a + 128 + (b + 1)) with ((b + 1) + (2 * a + 1) * 128) by lia.
    rewrite Z.div_add by lia. rewrite Z.div_small by lia. rewrite Z.add_0_l, Z.add_comm, Z.odd_add, Z.odd_mul. reflexivity.
Qed.
Lemma seqno_form : forall n, (0 < n)%nat -> seqno n = 256 * (Z.of_nat n / 128 mod 128) + 128 + Z.of_nat n mod 128.
Proof.
  intros n. induction n as [|n IH]; [lia|]. intros _. destruct n as [|n]; [reflexivity|].
  change (seqno (S (S n))) with (next_seq (seqno (S n))). rewrite IH by lia. set (z := Z.of_nat (S n)) in *.
  replace (Z.of_nat (S (S n))) with (z + 1) by lia. assert (Z0 : 0 < z) by lia. clearbody z. clear IH n.
  pose proof (Z.mod_pos_bound (z / 128) 128 eq_refl) as P. pose proof (Z.mod_pos_bound z 128 eq_refl) as Q.
  rewrite next_seq_form by lia. pose proof (Z_div_mod_eq_full z 128) as D. pose proof (Z_div_mod_eq_full (z / 128) 128) as D2.
  destruct (Z.eqb_spec (z mod 128) 127) as [E|E].
  - assert (E1 : (z + 1) / 128 = z / 128 + 1) by (symmetry; apply (Z.div_unique _ _ _ 0); lia).
    assert (E2 : (z + 1) mod 128 = 0) by (symmetry; apply (Z.mod_unique _ _ (z / 128 + 1)); lia). rewrite E1, E2.
    destruct (Z.eqb_spec (z / 128 mod 128) 127) as [F|F].
    + assert (E3 : (z / 128 + 1) mod 128 = 0) by (symmetry; apply (Z.mod_unique _ _ (z / 128 / 128 + 1)); lia). lia.
    + assert (E3 : (z / 128 + 1) mod 128 = z / 128 mod 128 + 1) by (symmetry; apply (Z.mod_unique _ _ (z / 128 / 128)); lia). lia.
  - assert (E1 : (z + 1) / 128 = z / 128) by (symmetry; apply (Z.div_unique _ _ _ (z mod 128 + 1)); lia).
    assert (E2 : (z + 1) mod 128 = z mod 128 + 1) by (symmetry; apply (Z.mod_unique _ _ (z / 128)); lia). rewrite E1, E2. lia.
Qed.
Lemma seqno_distinct : forall m n, (0 < m < n)%nat -> Z.of_nat n < Z.of_nat m + 16384 -> seqno m <> seqno n.
Proof.
  intros m n H D. rewrite !seqno_form by lia. intros E.
  pose proof (Z.mod_pos_bound (Z.of_nat m / 128) 128 eq_refl) as P1. pose proof (Z.mod_pos_bound (Z.of_nat m) 128 eq_refl) as P2.
  pose proof (Z.mod_pos_bound (Z.of_nat n / 128) 128 eq_refl) as P3. pose proof (Z.mod_pos_bound (Z.of_nat n) 128 eq_refl) as P4.
  pose proof (Z_div_mod_eq_full (Z.of_nat m) 128) as M1. pose proof (Z_div_mod_eq_full (Z.of_nat n) 128) as N1.
  pose proof (Z_div_mod_eq_full (Z.of_nat m / 128) 128) as M2. pose proof (Z_div_mod_eq_full (Z.of_nat n / 128) 128) as N2.
  generalize dependent (Z.of_nat m / 128 mod 128). generalize dependent (Z.of_nat n / 128 mod 128).
  generalize dependent (Z.of_nat m / 128 / 128). generalize dependent (Z.of_nat n / 128 / 128).
  generalize dependent (Z.of_nat m / 128). generalize dependent (Z.of_nat n / 128).
  generalize dependent (Z.of_nat m mod 128). generalize dependent (Z.of_nat n mod 128).
  intros. lia.
Qed.
Lemma seqno_range : forall n, (0 < n)%nat -> 128 <= seqno n < 32768 /\ Z.testbit (seqno n) 7 = true.
Proof.
  intros n H. rewrite seqno_form by exact H. pose proof (Z.mod_pos_bound (Z.of_nat n / 128) 128) as A.
  pose proof (Z.mod_pos_bound (Z.of_nat n) 128) as B. split; [lia|].
  set (a := Z.of_nat n / 128 mod 128) in *. set (b := Z.of_nat n mod 128) in *.
  rewrite Z.testbit_odd, shr by lia. change (2 ^ 7) with 128. replace (256 * a + 128 + b) with (b + (2 * a + 1) * 128) by lia.
  rewrite Z.div_add by lia. rewrite Z.div_small by lia. rewrite Z.add_0_l, Z.add_comm, Z.odd_add, Z.odd_mul. reflexivity.
Qed.
Lemma next_short : forall s, 0 <= s -> short (next_seq s).
Proof.
  intros s H. unfold next_seq, short. rewrite land32767. pose proof (Z.mod_pos_bound (s + 1) 32768 ltac:(lia)) as P.
  set (x := (s + 1) mod 32768) in *. split; [apply Z.lor_nonneg; lia|].
  destruct (Z.eq_dec (Z.lor x 128) 0) as [->|NZ]; [lia|].
  assert (0 < Z.lor x 128) by (pose proof (Z.lor_nonneg x 128); lia).
  change 32768 with (2 ^ 15). apply Z.log2_lt_pow2; [assumption|]. rewrite Z.log2_lor by lia. apply Z.max_lub_lt; [|reflexivity].
  destruct (Z.eq_dec x 0) as [->|]; [reflexivity|]. apply Z.log2_lt_pow2; [lia|exact (proj2 P)].
Qed.

(** ** Requests *)
Lemma drive_answer : forall val s e n a input, short s -> short e -> short n ->
  decode (drive val (packet s (Z.lor e 32768) n a input)) = Ok (s, firstn (Z.to_nat n) (val e)).
Proof.
  intros val s e n a input S E N. unfold drive. rewrite packet_parsed by assumption. cbn [app decode].
  replace (e + 32768 - 32768) with e by lia. f_equal. f_equal. unfold short in S.
  rewrite land32767. pose proof (Z_div_mod_eq_full s 256).
  replace (s mod 256 + 256 * (s / 256 + 128)) with (s + 1 * 32768) by lia.
  rewrite Z.mod_add by lia. apply Z.mod_small. exact S.
Qed.
Definition okl (l : link) : Prop := 0 <= l_seq l.
Lemma okl_next : forall s q, 0 <= s -> okl {| l_seq := next_seq s; l_queue := q |}.
Proof. intros s q H. exact (proj1 (next_short s H)). Qed.
Lemma request_seq : forall l e ep n a i, l_seq (fst (request l e ep n a i)) = next_seq (l_seq l).
Proof.
  intros l e ep n a i. unfold request. destruct e as [d|d| |c]; cbn zeta; try destruct (receive _); reflexivity.
Qed.
Lemma request_okl : forall l e ep n a i, okl l -> okl (fst (request l e ep n a i)).
Proof. intros l e ep n a i H. unfold okl. rewrite request_seq. exact (proj1 (next_short _ H)). Qed.
Lemma request_clean : forall l e ep n a i, l_queue l = [] -> (forall d, e <> Late d) -> l_queue (fst (request l e ep n a i)) = [].
Proof.
  intros l e ep n a i Q N. unfold request. rewrite Q. destruct e; cbn; try reflexivity; now destruct (N dev).
Qed.
Lemma talk_clean : forall rs l, okl l -> l_queue l = [] -> Forall not_late rs -> okl (talk l rs) /\ l_queue (talk l rs) = [].
Proof.
  induction rs as [|[[[[e ep] n] a] i] rs IH]; intros l O Q H; [split; assumption|].
  inversion H as [|x y N F]; subst. cbn [talk fold_left talk1]. apply IH; [now apply request_okl| |exact F].
  apply request_clean; [exact Q|]. intros d ->. exact N.
Qed.
Lemma request_own : forall l val ep n a i, okl l -> l_queue l = [] -> short ep -> short n ->
  request l (Timely (drive val)) ep n a i =
  ({| l_seq := next_seq (l_seq l); l_queue := [] |}, Ok (RData (firstn (Z.to_nat n) (val ep)))).
Proof.
  intros l val ep n a i O Q E N. unfold request. rewrite Q. cbn [app receive].
  rewrite drive_answer by (assumption || now apply next_short). reflexivity.
Qed.
Lemma own_answer : forall rs val ep n a i, Forall not_late rs -> short ep -> short n ->
  snd (request (talk link0 rs) (Timely (drive val)) ep n a i) = Ok (RData (firstn (Z.to_nat n) (val ep))).
Proof.
  intros rs val ep n a i H E N. destruct (talk_clean rs link0) as [O Q]; [unfold okl; cbn; lia|reflexivity|exact H|].
  now rewrite request_own.
Qed.
(** One answer in the queue, then everything in time. *)
Lemma shifted : forall val rs l buf s p, okl l -> l_queue l = [buf] -> decode buf = Ok (s, p) ->
  Forall (fun r => short (fst r) /\ short (Z.of_nat (snd r))) rs ->
  results val l rs = match rs with [] => [] | _ => Ok (RData p) :: map (own val) (removelast rs) end.
Proof.
  intros val rs. induction rs as [|[ep n] rs IH]; intros l buf s p O Q D H; [reflexivity|].
  inversion H as [|x y [E N] F]; subst. cbn [fst snd] in E, N. cbn [results].
  assert (R : request l (Timely (drive val)) ep (Z.of_nat n) None [] =
              ({| l_seq := next_seq (l_seq l); l_queue := [drive val (packet (next_seq (l_seq l)) (Z.lor ep 32768) (Z.of_nat n) None [])] |}, Ok (RData p))).
  { unfold request. rewrite Q. cbn [app receive]. rewrite D. reflexivity. }
  rewrite R. f_equal.
  erewrite IH; [| |reflexivity|apply drive_answer; try assumption; now apply next_short|exact F].
  - destruct rs as [|r rs]; [reflexivity|]. cbn [removelast map]. unfold own at 1. cbn [fst snd].
    rewrite Nat2Z.id. reflexivity.
  - unfold okl. cbn [l_seq]. exact (proj1 (next_short _ O)).
Qed.
Lemma one_late_shifts : forall val rs ep n, short ep -> short (Z.of_nat n) ->
  Forall (fun r => short (fst r) /\ short (Z.of_nat (snd r))) rs ->
  results val (fst (request link0 (Late (drive val)) ep (Z.of_nat n) None [])) rs = map (own val) (removelast ((ep, n) :: rs)).
Proof.
  intros val rs ep n E N H.
  assert (S : short (next_seq 0)) by (apply next_short; lia).
  change (fst (request link0 (Late (drive val)) ep (Z.of_nat n) None [])) with
    {| l_seq := next_seq 0; l_queue := [drive val (packet (next_seq 0) (Z.lor ep 32768) (Z.of_nat n) None [])] |}.
  rewrite (shifted val rs _ _ _ _ (okl_next 0 _ (Z.le_refl 0)) eq_refl (drive_answer val (next_seq 0) ep (Z.of_nat n) None [] S E N) H).
  destruct rs as [|r rs]; [reflexivity|]. change (removelast ((ep, n) :: r :: rs)) with ((ep, n) :: removelast (r :: rs)).
  cbn [map]. unfold own at 2. cbn [fst snd]. now rewrite Nat2Z.id.
Qed.

(** ** A round *)
Lemma getdata_own : forall l val ep n, okl l -> l_queue l = [] -> short ep -> short (Z.of_nat n) -> (0 < n)%nat -> length (val ep) = n ->
  getdata l (Timely (drive val)) ep n = ({| l_seq := next_seq (l_seq l); l_queue := [] |}, Ok (0, Some (val ep))).
Proof.
  intros l val ep n O Q E N P L. unfold getdata. rewrite request_own by assumption. rewrite Nat2Z.id.
  rewrite <- L, firstn_all. cbn [bind]. destruct (val ep) as [|z v] eqn:V; [cbn in L; lia|].
  rewrite Nat.ltb_irrefl, firstn_all. reflexivity.
Qed.
Lemma setdata_own : forall l val ep v, okl l -> l_queue l = [] -> short ep ->
  setdata l (Timely (drive val)) ep v = ({| l_seq := next_seq (l_seq l); l_queue := [] |}, Ok (RData [])).
Proof. intros l val ep v O Q E. unfold setdata. rewrite request_own by (assumption || (unfold short; lia)). reflexivity. Qed.
Ltac sh := unfold short; cbn; lia.
Lemma round_good : forall l val a b c d ref0 ref1, okl l -> l_queue l = [] -> complete val a b c d ->
  exists l', round l (timely val) ref0 ref1 = (l', Ok {| m_vel0 := a; m_vel1 := b; m_end0 := c; m_end1 := d |}) /\ okl l' /\ l_queue l' = [].
Proof.
  intros l val a b c d ref0 ref1 O Q (A & B & <- & <- & C & D). unfold round, timely. cbn [v1 v2 v3 v4 v5 v6 v7 v8].
  unfold number. cbn iota.
  assert (N : forall s, 0 <= s -> 0 <= next_seq s) by (intros s S; exact (proj1 (next_short s S))).
  assert (LC : length (val 291) = 1%nat) by (rewrite C; reflexivity).
  assert (LD : length (val 513) = 1%nat) by (rewrite D; reflexivity).
  rewrite setdata_own by (assumption || sh). cbn [l_seq].
  rewrite setdata_own by (reflexivity || sh || (apply okl_next; exact O)). cbn [l_seq].
  rewrite getdata_own by (reflexivity || assumption || sh || (apply okl_next; repeat apply N; exact O)). cbn [l_seq].
  rewrite getdata_own by (reflexivity || assumption || sh || (apply okl_next; repeat apply N; exact O)). cbn [l_seq].
  rewrite getdata_own by (reflexivity || assumption || sh || (apply okl_next; repeat apply N; exact O)). cbn [l_seq].
  rewrite getdata_own by (reflexivity || assumption || sh || (apply okl_next; repeat apply N; exact O)). cbn [l_seq].
  rewrite setdata_own by (reflexivity || sh || (apply okl_next; repeat apply N; exact O)). cbn [l_seq].
  rewrite setdata_own by (reflexivity || sh || (apply okl_next; repeat apply N; exact O)). cbn [l_seq].
  eexists. split.
  - cbn [bind snd use]. rewrite C, D. destruct c, d; reflexivity.
  - split; [apply okl_next; repeat apply N; exact O|reflexivity].
Qed.
