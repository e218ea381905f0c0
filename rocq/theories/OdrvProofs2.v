(** Proofs about the ODrive over USB: rounds with faults, description, search, requests of run(). *)
From Coq Require Import List ZArith Bool Lia String.
From Verif Require Import Prelude OdrvModel OdrvSpec OdrvProofs.
Import List ListNotations.
Local Open Scope list_scope.
Open Scope Z_scope.

(** ** Rounds with faults *)
Lemma request_shift : forall l val ep n a i buf s p, l_queue l = [buf] -> decode buf = Ok (s, p) ->
  request l (Timely (drive val)) ep n a i =
  ({| l_seq := next_seq (l_seq l); l_queue := [drive val (packet (next_seq (l_seq l)) (Z.lor ep 32768) n a i)] |}, Ok (RData p)).
Proof. intros l val ep n a i buf s p Q D. unfold request. rewrite Q. cbn [app receive]. rewrite D. reflexivity. Qed.
Lemma request_late : forall l val ep n a i, l_queue l = [] ->
  request l (Late (drive val)) ep n a i =
  ({| l_seq := next_seq (l_seq l); l_queue := [drive val (packet (next_seq (l_seq l)) (Z.lor ep 32768) n a i)] |}, Ok (RErr (-7))).
Proof. intros l val ep n a i Q. unfold request. rewrite Q. reflexivity. Qed.
Lemma seq_pos : forall s, 0 <= s -> 0 <= next_seq s.
Proof. intros s S. exact (proj1 (next_short s S)). Qed.
Ltac sq := cbn [l_seq]; repeat apply seq_pos; first [assumption | lia].
Lemma round_late : forall l val a b c d ref0 ref1, okl l -> l_queue l = [] -> complete val a b c d ->
  exists l' s, round l (last_late val) ref0 ref1 = (l', Ok {| m_vel0 := a; m_vel1 := b; m_end0 := c; m_end1 := d |}) /\ okl l' /\
  exists buf, l_queue l' = [buf] /\ decode buf = Ok (s, []).
Proof.
  intros l val a b c d ref0 ref1 O Q (A & B & <- & <- & C & D). unfold okl in O. unfold round, last_late. cbn [v1 v2 v3 v4 v5 v6 v7 v8].
  unfold number. cbn iota.
  assert (LC : length (val 291) = 1%nat) by (rewrite C; reflexivity).
  assert (LD : length (val 513) = 1%nat) by (rewrite D; reflexivity).
  rewrite setdata_own by (assumption || sh). cbn [l_seq].
  rewrite setdata_own by (reflexivity || sh || (unfold okl; sq)). cbn [l_seq].
  rewrite getdata_own by (reflexivity || assumption || sh || (unfold okl; sq)). cbn [l_seq].
  rewrite getdata_own by (reflexivity || assumption || sh || (unfold okl; sq)). cbn [l_seq].
  rewrite getdata_own by (reflexivity || assumption || sh || (unfold okl; sq)). cbn [l_seq].
  rewrite getdata_own by (reflexivity || assumption || sh || (unfold okl; sq)). cbn [l_seq].
  rewrite setdata_own by (reflexivity || sh || (unfold okl; sq)). cbn [l_seq].
  unfold setdata. rewrite request_late by reflexivity. cbn [l_seq].
  eexists. eexists. split; [|split].
  - cbn [bind snd use]. rewrite C, D. destruct c, d; reflexivity.
  - unfold okl. sq.
  - eexists. split; [reflexivity|]. rewrite drive_answer by (sh || (apply next_short; sq)). reflexivity.
Qed.
Lemma round_shifted : forall l val a b c d ref0 ref1 buf s, okl l -> complete val a b c d -> l_queue l = [buf] -> decode buf = Ok (s, []) ->
  snd (round l (timely val) ref0 ref1) = UB.
Proof.
  intros l val a b c d ref0 ref1 buf s O (A & B & <- & <- & C & D) Q E. unfold okl in O. unfold round, timely. cbn [v1 v2 v3 v4 v5 v6 v7 v8].
  unfold number. cbn iota. unfold setdata, getdata.
  rewrite (request_shift _ _ _ _ _ _ _ _ _ Q E). cbn [l_seq].
  erewrite request_shift; [|reflexivity|apply drive_answer; [apply next_short; sq|sh|sh] ]. cbn [l_seq Z.to_nat firstn].
  erewrite request_shift; [|reflexivity|apply drive_answer; [apply next_short; sq|sh|sh] ]. cbn [l_seq Z.to_nat firstn].
  erewrite request_shift; [|reflexivity|apply drive_answer; [apply next_short; sq|sh|sh] ]. cbn [l_seq].
  rewrite Nat2Z.id, firstn_all2 by lia.
  repeat (destruct (request _ _ _ _ _ _) as [? ?]; cbv beta iota). cbn [bind snd use fst].
  destruct (val 249) as [|z1 [|z2 [|z3 [|z4 [|z5 v]]]]]; cbn in A; try discriminate. reflexivity.
Qed.
Lemma round_fails : forall l val a b c d ref0 ref1 code, okl l -> complete val a b c d -> l_queue l = [] ->
  snd (round l (third_fails val code) ref0 ref1) = UB.
Proof.
  intros l val a b c d ref0 ref1 code O (A & B & <- & <- & C & D) Q. unfold okl in O. unfold round, third_fails. cbn [v1 v2 v3 v4 v5 v6 v7 v8].
  unfold number. cbn iota.
  rewrite setdata_own by (assumption || sh). cbn [l_seq].
  rewrite setdata_own by (reflexivity || sh || (unfold okl; sq)). cbn [l_seq].
  unfold getdata at 1. cbn [request l_seq l_queue].
  rewrite getdata_own by (reflexivity || assumption || sh || (unfold okl; sq)). cbn [l_seq].
  repeat (destruct (getdata _ _ _ _) as [? ?]; cbv beta iota).
  repeat (destruct (setdata _ _ _ _) as [? ?]; cbv beta iota). reflexivity.
Qed.

(** ** Description *)
Lemma teller_answer : forall c J s n a, short s -> short n -> 0 <= a < 2 ^ 32 ->
  decode (teller c J (packet s (Z.lor 0 32768) n (Some a) [])) = Ok (s, firstn (Nat.min c (Z.to_nat n)) (skipn (Z.to_nat a) J)).
Proof.
  intros c J s n a S N A. unfold teller. rewrite packet_parsed by (assumption || sh). rewrite app_nil_r, four_back by exact A.
  cbn [app decode]. f_equal. f_equal. unfold short in S.
  rewrite land32767. pose proof (Z_div_mod_eq_full s 256).
  replace (s mod 256 + 256 * (s / 256 + 128)) with (s + 1 * 32768) by lia.
  rewrite Z.mod_add by lia. apply Z.mod_small. exact S.
Qed.
Lemma js_step_teller : forall c J s tl, okl (j_link s) -> l_queue (j_link s) = [] -> j_addr s = Z.of_nat (length (j_str s)) ->
  J = j_str s ++ tl -> Z.of_nat (length J) < 2 ^ 31 ->
  let p := firstn (Nat.min c 512) tl in
  exists l, js_step s (Timely (teller c J)) =
    Ok ({| j_link := l; j_len := Some (length p); j_rx := p; j_addr := Z.of_nat (length (j_str s ++ p)); j_str := j_str s ++ p |},
        (0 <? length p)%nat) /\ okl l /\ l_queue l = [].
Proof.
  intros c J s tl O Q A E L p. change (2 ^ 31) with 2147483648 in L. unfold js_step, request. rewrite Q. cbn [app receive].
  rewrite teller_answer; [|now apply next_short|sh|].
  2:{ change (2 ^ 32) with 4294967296. rewrite A. rewrite E, app_length in L. lia. }
  cbn [bind]. rewrite A, Nat2Z.id. rewrite E. rewrite skipn_app, skipn_all, Nat.sub_diag. cbn [skipn app snd].
  change (Z.to_nat 512) with 512%nat. fold p. rewrite firstn_all. exists (Build_link (next_seq (l_seq (j_link s))) []). split; [|split; [exact (seq_pos _ O)|reflexivity]].
  rewrite app_length. f_equal. f_equal. f_equal. lia.
Qed.
Lemma js_loop : forall c J, (0 < c)%nat -> Z.of_nat (length J) < 2 ^ 31 -> forall k s tl n, (length tl <= k)%nat -> (k < n)%nat ->
  okl (j_link s) -> l_queue (j_link s) = [] -> j_addr s = Z.of_nat (length (j_str s)) -> J = j_str s ++ tl ->
  exists s', js_run s (repeat (Timely (teller c J)) n) = Ok (s', false) /\ j_str s' = J.
Proof.
  intros c J C L. induction k as [|k IH]; intros s tl n K N O Q A E; (destruct n as [|n]; [lia|]); cbn [repeat js_run].
  - destruct tl; [|cbn in K; lia]. destruct (js_step_teller c J s [] O Q A E L) as (l & R & _ & _). rewrite R. rewrite firstn_nil. cbn.
    eexists. split; [reflexivity|]. cbn. now rewrite E.
  - destruct (js_step_teller c J s tl O Q A E L) as (l & R & O' & Q'). rewrite R. cbn [bind fst snd]. clear R.
    assert (PL : length (firstn (Nat.min c 512) tl) = Nat.min (Nat.min c 512) (length tl)) by apply firstn_length.
    destruct (Nat.ltb_spec 0 (length (firstn (Nat.min c 512) tl))) as [P|P].
    + apply IH with (skipn (Nat.min c 512) tl); cbn [j_link j_addr j_str].
      * rewrite skipn_length. lia.
      * lia.
      * exact O'.
      * exact Q'.
      * reflexivity.
      * rewrite E at 1. rewrite <- app_assoc. f_equal. symmetry. apply firstn_skipn.
    + assert (T : tl = []) by (destruct tl; [reflexivity|cbn [length] in PL; lia]). rewrite T in *. rewrite firstn_nil, !app_nil_r in *.
      eexists. split; [reflexivity|]. cbn [j_str]. now rewrite E.
Qed.
Lemma js_good : forall c J n, (0 < c)%nat -> Z.of_nat (length J) < 2 ^ 31 -> (length J < n)%nat ->
  exists s, js_run (js_start link0) (repeat (Timely (teller c J)) n) = Ok (s, false) /\ j_str s = J.
Proof.
  intros c J n C L N. apply (js_loop c J C L (length J) (js_start link0) J n); cbn; try lia; try reflexivity. unfold okl. cbn. lia.
Qed.
Lemma js_stale : forall code n s len, j_len s = Some (S len) -> length (j_rx s) = S len ->
  exists s', js_run s (repeat (NotSent code) n) = Ok (s', true) /\ length (j_str s') = (length (j_str s) + n * S len)%nat.
Proof.
  intros code. induction n as [|n IH]; intros s len L R; cbn [repeat js_run].
  - exists s. split; [reflexivity|lia].
  - unfold js_step. cbn [request bind]. rewrite L. cbn [snd fst Nat.ltb Nat.leb bind].
    match goal with |- context [js_run ?x _] => destruct (IH x len eq_refl R) as (s' & E & F) end. exists s'. split; [exact E|]. rewrite F. cbn [j_str].
    rewrite app_length, firstn_length, R. lia.
Qed.

(** ** Search *)
Lemma hexdigit_ok : forall d, 0 <= d < 16 -> is_digit (hexdigit d) /\ digit (hexdigit d) = d.
Proof.
  intros d H. unfold hexdigit, is_digit, digit. destruct (Z.ltb_spec d 10).
  - destruct (Z.ltb_spec (48 + d) 58); lia.
  - destruct (Z.ltb_spec (55 + d) 58); lia.
Qed.
Lemma hexval_from : forall s v, fold_left (fun v c => 16 * v + digit c) s v = v * 16 ^ Z.of_nat (length s) + hexval s.
Proof.
  unfold hexval. induction s as [|c s IH]; intros v; [cbn; lia|]. cbn [fold_left length]. rewrite IH, (IH (16 * 0 + digit c)).
  replace (Z.of_nat (S (length s))) with (Z.of_nat (length s) + 1) by lia. rewrite Z.pow_add_r by lia. change (16 ^ 1) with 16. ring.
Qed.
Lemma hexval_cons : forall c s, hexval (c :: s) = digit c * 16 ^ Z.of_nat (length s) + hexval s.
Proof. intros c s. unfold hexval at 1. cbn [fold_left]. rewrite hexval_from. f_equal. Qed.
Lemma digit_range : forall c, is_digit c -> 0 <= digit c < 16.
Proof. intros c H. unfold is_digit, digit in *. destruct (Z.ltb_spec c 58); lia. Qed.
Lemma digit_inj : forall c d, is_digit c -> is_digit d -> digit c = digit d -> c = d.
Proof. intros c d H K. unfold is_digit, digit in *. destruct (Z.ltb_spec c 58), (Z.ltb_spec d 58); lia. Qed.
Lemma hexval_range : forall s, Forall is_digit s -> 0 <= hexval s < 16 ^ Z.of_nat (length s).
Proof.
  induction s as [|c s IH]; intros H; [cbn; lia|]. inversion H as [|x y D F]; subst. rewrite hexval_cons. apply digit_range in D. specialize (IH F).
  cbn [length]. replace (Z.of_nat (S (length s))) with (Z.of_nat (length s) + 1) by lia. rewrite Z.pow_add_r by lia. change (16 ^ 1) with 16. nia.
Qed.
Lemma hexval_inj : forall s t, Forall is_digit s -> Forall is_digit t -> length s = length t -> hexval s = hexval t -> s = t.
Proof.
  induction s as [|c s IH]; intros [|d t] S T L E; try discriminate; [reflexivity|].
  inversion S as [|x y C FS]; inversion T as [|x' y' D FT]; subst. injection L as L. rewrite !hexval_cons, L in E.
  pose proof (hexval_range s FS) as RS. pose proof (hexval_range t FT) as RT. rewrite L in RS.
  set (B := 16 ^ Z.of_nat (length t)) in *.
  assert (digit c = digit d) as DE by nia. rewrite (digit_inj c d C D DE). f_equal. apply IH; try assumption. rewrite DE in E. lia.
Qed.
Lemma hexf_spec : forall f n acc, 0 <= n < 16 ^ Z.of_nat f -> Forall is_digit acc ->
  Forall is_digit (hexf f n acc) /\ hexval (hexf f n acc) = n * 16 ^ Z.of_nat (length acc) + hexval acc.
Proof.
  induction f as [|f IH]; intros n acc H A.
  - cbn in H. assert (n = 0) as -> by lia. cbn [hexf]. split; [exact A|lia].
  - cbn [hexf]. destruct (Z.ltb_spec n 16) as [L|L].
    + destruct (hexdigit_ok n) as [D V]; [lia|]. split; [now constructor|]. rewrite hexval_cons, V. reflexivity.
    + pose proof (Z.mod_pos_bound n 16 eq_refl) as M. pose proof (Z_div_mod_eq_full n 16) as DM.
      replace (Z.of_nat (S f)) with (Z.of_nat f + 1) in H by lia. rewrite Z.pow_add_r in H by lia. change (16 ^ 1) with 16 in H.
      destruct (hexdigit_ok (n mod 16)) as [D V]; [exact M|].
      destruct (IH (n / 16) (hexdigit (n mod 16) :: acc)) as [F E].
      { split; [apply Z.div_pos; lia|apply Z.div_lt_upper_bound; lia]. }
      { now constructor. }
      split; [exact F|]. rewrite E, hexval_cons, V. cbn [length].
      replace (Z.of_nat (S (length acc))) with (Z.of_nat (length acc) + 1) by lia. rewrite Z.pow_add_r by lia. change (16 ^ 1) with 16.
      rewrite DM at 3. ring.
Qed.
Lemma hexf_length : forall k f n acc, (k < f)%nat -> 16 ^ Z.of_nat k <= n < 16 ^ Z.of_nat (S k) -> length (hexf f n acc) = (S k + length acc)%nat.
Proof.
  induction k as [|k IH]; intros f n acc K H; (destruct f as [|f]; [lia|]); cbn [hexf].
  - cbn in H. destruct (Z.ltb_spec n 16); [reflexivity|lia].
  - replace (Z.of_nat (S (S k))) with (Z.of_nat (S k) + 1) in H by lia. replace (Z.of_nat (S k)) with (Z.of_nat k + 1) in H by lia.
    rewrite !Z.pow_add_r in H by lia. change (16 ^ 1) with 16 in H.
    assert (P : 0 < 16 ^ Z.of_nat k) by (apply Z.pow_pos_nonneg; lia).
    destruct (Z.ltb_spec n 16) as [L|L]; [lia|]. rewrite IH; [cbn; lia|lia|].
    replace (Z.of_nat (S k)) with (Z.of_nat k + 1) by lia. rewrite Z.pow_add_r by lia. change (16 ^ 1) with 16.
    split; [apply Z.div_le_lower_bound; lia|apply Z.div_lt_upper_bound; lia].
Qed.
Lemma matches_value : forall w s, 16 ^ 11 <= w < 16 ^ 12 -> length s = 12%nat -> Forall is_digit s -> (matches w s = true <-> hexval s = w).
Proof.
  intros w s W L D.
  assert (HL : length (hex w) = 12%nat) by (unfold hex; rewrite (hexf_length 11); [reflexivity|lia|exact W]).
  assert (HS : Forall is_digit (hex w) /\ hexval (hex w) = w).
  { unfold hex. destruct (hexf_spec 16 w []) as [A B]; [|constructor|].
    - change (16 ^ Z.of_nat 16) with 18446744073709551616. change (16 ^ 12) with 281474976710656 in W. change (16 ^ 11) with 17592186044416 in W. lia.
    - split; [exact A|]. rewrite B. cbn. lia. }
  destruct HS as [HD HV]. unfold matches. rewrite L, <- HL, firstn_all.
  destruct (list_eq_dec Z.eq_dec (hex w) s) as [<-|N]; split; intros H; try reflexivity; try exact HV; try discriminate.
  exfalso. apply N. apply hexval_inj; try assumption; congruence.
Qed.
Lemma search_found : forall w ds k cs i, search w k ds = (cs, Some i) ->
  exists d s, (k <= i)%nat /\ nth_error ds (i - k) = Some d /\ usable d /\ u_serial d = Some s /\ matches w s = true.
Proof.
  intros w. induction ds as [|d ds IH]; intros k cs i H; [discriminate|]. cbn [search] in H.
  assert (REC : forall x, (let (c, a) := search w (S k) ds in (x ++ c, a)) = (cs, Some i) ->
    exists d0 s, (k <= i)%nat /\ nth_error (d :: ds) (i - k) = Some d0 /\ usable d0 /\ u_serial d0 = Some s /\ matches w s = true).
  { clear H. intros x E. destruct (search w (S k) ds) as [c a] eqn:R. injection E as _ ->.
    destruct (IH _ _ _ R) as (d0 & s & K & N & U & SE & M). exists d0, s. split; [lia|]. split; [|now split].
    replace (i - k)%nat with (S (i - S k)) by lia. exact N. }
  destruct (u_desc d) eqn:E1; cbn [negb] in H; [|now apply REC in H].
  destruct (u_odrive d) eqn:E2; cbn [negb] in H; [|now apply REC in H].
  destruct (u_open2 d) eqn:E3; cbn [negb] in H; [|now apply REC in H].
  destruct (u_active d && negb (u_detach d)) eqn:E4; [now apply REC in H|].
  destruct (u_claim d) eqn:E5; cbn [negb] in H; [|now apply REC in H].
  destruct (u_serial d) as [s|] eqn:E6; [|now apply REC in H].
  destruct (matches w s) eqn:E7; [|now apply REC in H]. injection H as _ <-.
  exists d, s. rewrite Nat.sub_diag. repeat split; try assumption; try lia; try congruence.
  intros A. rewrite A in E4. now destruct (u_detach d).
Qed.
Lemma search_none : forall w ds k cs, search w k ds = (cs, None) ->
  forall d s, In d ds -> usable d -> u_serial d = Some s -> matches w s = false.
Proof.
  intros w. induction ds as [|d ds IH]; intros k cs H d0 s I U SE; [contradiction|]. cbn [search] in H.
  assert (REC : forall x, (let (c, a) := search w (S k) ds in (x ++ c, a)) = (cs, None) -> In d0 ds -> matches w s = false).
  { clear H. intros x E J. destruct (search w (Datatypes.S k) ds) as [c a] eqn:R. injection E as _ ->. exact (IH _ _ R d0 s J U SE). }
  destruct I as [->|I].
  - destruct U as (U1 & U2 & U3 & U4 & U5 & U6). rewrite U1, U2, U3, U5 in H. cbn [negb] in H.
    destruct (u_active d0) eqn:A; cbn [andb] in H; [rewrite (U4 eq_refl) in H; cbn [negb] in H|];
      rewrite SE in H; (destruct (matches w s); [discriminate|reflexivity]).
  - destruct (u_desc d); cbn [negb] in H; [|now apply REC in H].
    destruct (u_odrive d); cbn [negb] in H; [|now apply REC in H].
    destruct (u_open2 d); cbn [negb] in H; [|now apply REC in H].
    destruct (u_active d && negb (u_detach d)); [now apply REC in H|].
    destruct (u_claim d); cbn [negb] in H; [|now apply REC in H].
    destruct (u_serial d) as [t|]; [|now apply REC in H].
    destruct (matches w t); [discriminate|now apply REC in H].
Qed.
Lemma init_search : forall first w ds r cs a, init first w ds = (r, cs, a) ->
  a = snd (search w 0 ds) /\ cs = (if first then resets 0 ds else []) ++ fst (search w 0 ds).
Proof.
  intros first w [|d ds] r cs a H; [cbn in H; injection H as <- <- <-; split; [reflexivity|now destruct first]|].
  unfold init in H. destruct (search w 0 (d :: ds)) as [c x]. injection H as _ <- <-. now split.
Qed.
Lemma right_drive : forall first w ds r cs a, 16 ^ 11 <= w < 16 ^ 12 -> serials12 ds -> init first w ds = (r, cs, a) ->
  (forall i, a = Some i -> exists d s, nth_error ds i = Some d /\ usable d /\ u_serial d = Some s /\ hexval s = w) /\
  (a = None -> forall d s, In d ds -> usable d -> u_serial d = Some s -> hexval s <> w).
Proof.
  intros first w ds r cs a W L H. apply init_search in H as [A _]. destruct (search w 0 ds) as [c x] eqn:E. cbn in A. subst x. split.
  - intros i ->. destruct (search_found w ds 0 c i E) as (d & s & _ & N & U & S & M). rewrite Nat.sub_0_r in N. exists d, s.
    split; [exact N|]. split; [exact U|]. split; [exact S|]. destruct (L d s) as [L1 L2]; [now apply nth_error_In with i|exact S|].
    now apply matches_value.
  - intros -> d s I U S V. destruct (L d s I S) as [L1 L2]. apply (matches_value w s W L1 L2) in V.
    rewrite (search_none w ds 0 c E d s I U S) in V. discriminate.
Qed.
Lemma of_dev_app : forall i a b, of_dev i (a ++ b) = of_dev i a ++ of_dev i b.
Proof. intros. apply filter_app. Qed.
Definition flag (i : nat) (a : option nat) : bool := match a with Some j => Nat.eqb j i | None => false end.
Lemma search_used : forall w i ds k c a, search w k ds = (c, a) -> used i (flag i a) (of_dev i c).
Proof.
  intros w i. induction ds as [|d ds IH]; intros k c a H; [injection H as <- <-; constructor|]. cbn [search] in H.
  assert (REC : forall x, (let (c, a) := search w (S k) ds in (x ++ c, a)) = (c, a) ->
    exists c', c = x ++ c' /\ used i (flag i a) (of_dev i c')).
  { clear H. intros x E. destruct (search w (S k) ds) as [c' a'] eqn:R. injection E as <- <-. exists c'. split; [reflexivity|]. exact (IH _ _ _ R). }
  assert (B1 : forall c', used i (flag i a) (of_dev i c') -> used i (flag i a) (of_dev i ([COpen k; CClose k] ++ c'))).
  { intros c' U. rewrite of_dev_app. cbn. destruct (Nat.eqb_spec k i) as [->|]; [now constructor|exact U]. }
  assert (B2 : forall c', used i (flag i a) (of_dev i c') -> used i (flag i a) (of_dev i ([COpen k; CClaim k 2; CRelease k 2; CClose k] ++ c'))).
  { intros c' U. rewrite of_dev_app. cbn. destruct (Nat.eqb_spec k i) as [->|]; [now constructor|exact U]. }
  destruct (u_desc d); cbn [negb] in H; [|apply REC in H as (c' & -> & U); exact U].
  destruct (u_odrive d); cbn [negb] in H; [|apply REC in H as (c' & -> & U); exact U].
  destruct (u_open2 d); cbn [negb] in H; [|apply REC in H as (c' & -> & U); exact U].
  destruct (u_active d && negb (u_detach d)); [apply REC in H as (c' & -> & U); now apply B1|].
  destruct (u_claim d); cbn [negb] in H; [|apply REC in H as (c' & -> & U); now apply B1].
  destruct (u_serial d) as [s|]; [|apply REC in H as (c' & -> & U); now apply B2].
  destruct (matches w s); [|apply REC in H as (c' & -> & U); now apply B2].
  injection H as <- <-. cbn. destruct (Nat.eqb_spec k i) as [->|]; constructor.
Qed.
Lemma resets_used : forall i h cs ds k, used i h cs -> used i h (of_dev i (resets k ds) ++ cs).
Proof.
  intros i h cs. induction ds as [|d ds IH]; intros k U; [exact U|]. cbn [resets]. rewrite of_dev_app, <- app_assoc.
  destruct (u_desc d && u_odrive d && u_open1 d); [|now apply IH]. cbn. destruct (Nat.eqb_spec k i) as [->|]; [|now apply IH].
  cbn. constructor. now apply IH.
Qed.
Lemma handles : forall first w ds r cs a i, init first w ds = (r, cs, a) ->
  used i match a with Some j => Nat.eqb j i | None => false end (of_dev i cs).
Proof.
  intros first w ds r cs a i H. apply init_search in H as [-> ->]. rewrite of_dev_app.
  destruct (search w 0 ds) as [c x] eqn:E. cbn [fst snd]. apply search_used with (i := i) in E.
  destruct first; [now apply resets_used|exact E].
Qed.
Lemma used_released : forall i h l, used i h l -> h = false -> forall n x y, l = x ++ CClaim i n :: y -> exists y', y = CRelease i n :: CClose i :: y'.
Proof.
  intros i h l U. induction U as [| |h cs U IH|h cs U IH|h cs U IH]; intros F n x y E.
  - destruct x; discriminate.
  - discriminate.
  - destruct x as [|? [|? [|? x]]]; try discriminate. injection E as _ _ _ E. exact (IH F n x y E).
  - destruct x as [|? [|? x]]; try discriminate. injection E as _ _ E. exact (IH F n x y E).
  - destruct x as [|? x]; [discriminate|]. injection E as _ E. destruct x as [|? x]; injection E as E0 E.
    + subst. now exists cs.
    + destruct x as [|? [|? x]]; try discriminate. injection E as _ _ E. exact (IH F n x y E).
Qed.
Lemma of_dev_head : forall i b y, of_dev i b = CRelease i y :: CClose i :: [] ++ skipn 2 (of_dev i b) ->
  exists c d, b = c ++ CRelease i y :: d /\ ~ In (CClose i) c.
Proof.
  intros i. induction b as [|z b IH]; intros y H; [discriminate|]. cbn [of_dev filter] in H.
  destruct (Nat.eqb_spec (dev_of z) i) as [E|E].
  - injection H as -> _. exists [], b. split; [reflexivity|intros []].
  - destruct (IH y) as (c & d & -> & N); [exact H|]. exists (z :: c), d. split; [reflexivity|].
    intros [->|I]; [now apply E|now apply N].
Qed.
Lemma no_drive_released : forall first w ds r cs, init first w ds = (r, cs, None) -> released (cs ++ ep_free None).
Proof.
  intros first w ds r cs H i n a b E. cbn in E. rewrite app_nil_r in E. pose proof (handles first w ds r cs None i H) as U.
  rewrite E, of_dev_app in U. cbn [of_dev filter dev_of] in U. rewrite Nat.eqb_refl in U.
  destruct (used_released i false _ U eq_refl n _ _ eq_refl) as [y' Y]. fold (of_dev i b) in Y.
  apply of_dev_head. rewrite Y. reflexivity.
Qed.
Lemma init_code : forall first w ds r cs a, ds <> [] -> init first w ds = (r, cs, a) -> (r = 0 <-> a <> None).
Proof.
  intros first w [|d ds] r cs a N H; [contradiction|]. unfold init in H. destruct (search w 0 (d :: ds)) as [c [x|]]; injection H as <- _ <-.
  - split; [discriminate|reflexivity].
  - split; [discriminate|intros K; now destruct K].
Qed.

(** ** Endpoints *)
Lemma numbers_described : forall axis w, (axis, w) <> (true, EndstopState) -> In (number axis w, (axis, path w)) described.
Proof.
  intros axis w N. destruct axis, w; try (exfalso; now apply N); unfold described; cbn [number path In];
    repeat (first [left; reflexivity | right]).
Qed.

(** ** End stops *)
Fixpoint lim (axis : bool) (k N : nat) (l : list req) : bool :=
  match l with
  | [] => true
  | (a, EndstopState) :: l => if Bool.eqb a axis then lim axis 0 N l else (k <? N)%nat && lim axis (S k) N l
  | _ :: l => (k <? N)%nat && lim axis (S k) N l
  end.
Fixpoint cnt (axis : bool) (k : nat) (l : list req) : nat :=
  match l with
  | [] => k
  | (a, EndstopState) :: l => if Bool.eqb a axis then cnt axis 0 l else cnt axis (S k) l
  | _ :: l => cnt axis (S k) l
  end.
Lemma lim_app : forall axis N l1 l2 k, lim axis k N (l1 ++ l2) = lim axis k N l1 && lim axis (cnt axis k l1) N l2.
Proof.
  intros axis N l1 l2. induction l1 as [|[a w] l1 IH]; intros k; [reflexivity|]. cbn [app lim cnt].
  destruct w; try (rewrite IH, andb_assoc; reflexivity). destruct (Bool.eqb a axis); [apply IH|]. rewrite IH, andb_assoc. reflexivity.
Qed.
Lemma cnt_app : forall axis l1 l2 k, cnt axis k (l1 ++ l2) = cnt axis (cnt axis k l1) l2.
Proof.
  intros axis l1 l2. induction l1 as [|[a w] l1 IH]; intros k; [reflexivity|]. cbn [app cnt].
  destruct w; try apply IH. destruct (Bool.eqb a axis); apply IH.
Qed.
Lemma lim_prefix : forall axis N mid b k, lim axis k N (mid ++ b) = true -> ~ In (axis, EndstopState) mid -> (k <= N)%nat -> (k + length mid <= N)%nat.
Proof.
  intros axis N mid b. induction mid as [|[a w] mid IH]; intros k L I K; [cbn; lia|].
  assert (J : ~ In (axis, EndstopState) mid) by (intros J; apply I; now right).
  assert (G : (k <? N)%nat && lim axis (S k) N (mid ++ b) = true -> (k + length ((a, w) :: mid) <= N)%nat).
  { intros G. apply andb_prop in G as [G1 G2]. apply Nat.ltb_lt in G1. specialize (IH (S k) G2 J ltac:(lia)). cbn [length]. lia. }
  cbn [app lim] in L. destruct w; try (apply G; exact L). destruct (Bool.eqb a axis) eqn:E; [|apply G; exact L].
  apply eqb_prop in E. subst. exfalso. apply I. now left.
Qed.
Lemma lim_window : forall axis N a mid b k, (k <= N)%nat -> lim axis k N (a ++ mid ++ b) = true -> ~ In (axis, EndstopState) mid -> (length mid <= N)%nat.
Proof.
  intros axis N a mid b. induction a as [|[x w] a IH]; intros k K L I.
  - cbn [app] in L. pose proof (lim_prefix axis N mid b k L I K). lia.
  - cbn [app lim] in L.
    assert (G : (k <? N)%nat && lim axis (S k) N (a ++ mid ++ b) = true -> (length mid <= N)%nat).
    { intros G. apply andb_prop in G as [G1 G2]. apply Nat.ltb_lt in G1. apply (IH (S k)); [lia|exact G2|exact I]. }
    destruct w; try (apply G; exact L). destruct (Bool.eqb x axis); [|apply G; exact L]. apply (IH 0%nat); [lia|exact L|exact I].
Qed.
Lemma lim_free : forall axis N l k, ~ In (axis, EndstopState) l -> (k + length l <= N)%nat -> lim axis k N l = true /\ cnt axis k l = (k + length l)%nat.
Proof.
  intros axis N. induction l as [|[a w] l IH]; intros k I K; [split; [reflexivity|cbn; lia]|].
  assert (J : ~ In (axis, EndstopState) l) by (intros J; apply I; now right). cbn [length] in K.
  destruct (IH (S k) J ltac:(lia)) as [L C]. assert (B : (k <? N)%nat = true) by (apply Nat.ltb_lt; lia).
  cbn [lim cnt length]. destruct w; try (rewrite B, L, C; split; [reflexivity|lia]).
  destruct (Bool.eqb a axis) eqn:E; [apply eqb_prop in E; subst; exfalso; apply I; now left|].
  rewrite B, L, C. split; [reflexivity|lia].
Qed.
Lemma lim_repeat : forall axis N block M, (forall k, (k <= M)%nat -> lim axis k N block = true /\ (cnt axis k block <= M)%nat) ->
  forall n k, (k <= M)%nat -> lim axis k N (concat (repeat block n)) = true /\ (cnt axis k (concat (repeat block n)) <= M)%nat.
Proof.
  intros axis N block M H. induction n as [|n IH]; intros k K; [split; [reflexivity|exact K]|]. cbn [repeat concat].
  rewrite lim_app, cnt_app. destruct (H k K) as [A B]. destruct (IH (cnt axis k block) B) as [C D]. rewrite A, C. split; [reflexivity|exact D].
Qed.
Lemma calibrate_free : forall axis c n, ~ In (axis, EndstopState) (calibrate c n) /\ (length (calibrate c n) <= 22 + 4 * n)%nat.
Proof.
  intros axis c n. unfold calibrate.
  set (poll := [(false, IsCalibrated); (false, EncIsReady); (true, IsCalibrated); (true, EncIsReady)]).
  assert (P : ~ In (axis, EndstopState) (concat (repeat poll n)) /\ length (concat (repeat poll n)) = (4 * n)%nat).
  { clear. induction n as [|n [I L]]; [split; [intros []|reflexivity]|]. cbn [repeat concat]. split.
    - rewrite in_app_iff. intros [J|J]; [|now apply I]. cbn in J. repeat (destruct J as [J|J]; [discriminate|]). exact J.
    - rewrite app_length, L. cbn [poll length]. lia. }
  destruct P as [I L]. generalize dependent (concat (repeat poll n)). intros ps I L. split.
  - rewrite !in_app_iff. intros J. repeat (destruct J as [J|J]); try contradiction;
      try discriminate;
      match type of J with In _ (if ?b then _ else _) => destruct b; cbn in J; [exact J|destruct J as [J|[] ]; discriminate] end.
  - rewrite !app_length, L. destruct (c_mot0 c), (c_mot1 c), (c_enc0 c), (c_enc1 c); cbn [length]; lia.
Qed.
Lemma asked : forall axis waits c polls rounds a mid b, requests waits c polls rounds = a ++ mid ++ b -> ~ In (axis, EndstopState) mid ->
  (length mid <= 4 * polls + 36)%nat.
Proof.
  intros axis waits c polls rounds a mid b E I. apply (lim_window axis (4 * polls + 36) a mid b 0); [lia| |exact I].
  rewrite <- E. unfold requests. rewrite !lim_app.
  destruct (lim_repeat axis (4 * polls + 36) ask_end 1) with (n := waits) (k := 0%nat) as [A1 A2]; [|lia|].
  { intros k K. assert (B : (k <? 4 * polls + 36)%nat = true) by (apply Nat.ltb_lt; lia).
    assert (B0 : (0 <? 4 * polls + 36)%nat = true) by (apply Nat.ltb_lt; lia).
    destruct axis; unfold ask_end; cbn [lim cnt Bool.eqb]; rewrite ?B, ?B0; split; reflexivity || lia. }
  rewrite A1. set (k1 := cnt axis 0 (concat (repeat ask_end waits))) in *.
  destruct (calibrate_free axis c polls) as [CF CL].
  destruct (lim_free axis (4 * polls + 36) (calibrate c polls) k1 CF) as [B1 B2]; [lia|]. rewrite B1, B2.
  destruct (lim_free axis (4 * polls + 36) [(false, Feed); (true, Feed); (false, EnableWatchdog); (true, EnableWatchdog)] (k1 + length (calibrate c polls))) as [C1 C2].
  { cbn. intros J. repeat (destruct J as [J|J]; [discriminate|]). exact J. }
  { cbn [length]. lia. }
  rewrite C1, C2. cbn [andb length].
  match goal with |- lim _ _ _ (concat (repeat ?bl _)) = true =>
    destruct (lim_repeat axis (4 * polls + 36) bl (4 * polls + 30)) with (n := rounds) (k := (k1 + length (calibrate c polls) + 4)%nat) as [D _]; [|lia|exact D] end.
  intros k K. assert (BS : forall j, (j < 4 * polls + 36)%nat -> (j <? 4 * polls + 36)%nat = true) by (intros; now apply Nat.ltb_lt).
  destruct axis; unfold ask_end; cbn [app lim cnt Bool.eqb]; rewrite !BS by lia; split; reflexivity || lia.
Qed.
Lemma not_asked : forall axis c K, exists a mid b, requests 0 c K 0 = a ++ mid ++ b /\ (K <= length mid)%nat /\ ~ In (axis, EndstopState) mid.
Proof.
  intros axis c K. exists [], (calibrate c K), [(false, Feed); (true, Feed); (false, EnableWatchdog); (true, EnableWatchdog)].
  split; [reflexivity|]. destruct (calibrate_free axis c K) as [F _]. split; [|exact F].
  unfold calibrate. rewrite !app_length.
  assert (P : length (concat (repeat [(false, IsCalibrated); (false, EncIsReady); (true, IsCalibrated); (true, EncIsReady)] K)) = (4 * K)%nat).
  { clear. induction K as [|K IH]; [reflexivity|]. cbn [repeat concat]. rewrite app_length, IH. cbn [length]. lia. }
  rewrite P. lia.
Qed.
