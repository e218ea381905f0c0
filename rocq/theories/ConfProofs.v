(** Proofs about configurations. *)
From Coq Require Import Ascii.
From Verif Require Import Prelude ConfModel ConfSpec.
Open Scope Z_scope.

(** ** Numbers *)
Lemma digit_ok d : 0 <= d < 10 -> digit_val (digit d) = Some d /\ is_space (digit d) = false /\ digit d <> comma /\ digit d <> newline /\ digit d <> "-"%char /\ digit d <> "+"%char.
Proof.
  intros H. assert (K : d = 0 \/ d = 1 \/ d = 2 \/ d = 3 \/ d = 4 \/ d = 5 \/ d = 6 \/ d = 7 \/ d = 8 \/ d = 9) by lia.
  repeat (destruct K as [->|K]; [repeat split; discriminate|]). subst d. repeat split; discriminate.
Qed.
Lemma read_digits_of f : forall n rest, 0 <= n < 10 ^ Z.of_nat (S f) -> read_digits (digits_of (S f) n ++ rest) None = read_digits rest (Some n).
Proof.
  induction f as [|f IH]; intros n rest H.
  - cbn [digits_of]. change (10 ^ Z.of_nat 1) with 10 in H. destruct (Z.ltb_spec n 10); [|lia]. cbn [app read_digits]. destruct (digit_ok n) as [-> _]; [lia|]. f_equal.
  - remember (S f) as g. cbn [digits_of]. destruct (Z.ltb_spec n 10).
    + cbn [app read_digits]. destruct (digit_ok n) as [-> _]; [lia|]. f_equal.
    + rewrite <- app_assoc. rewrite IH.
      * cbn [app read_digits]. destruct (digit_ok (n mod 10)) as [-> _]; [apply Z.mod_pos_bound; lia|]. f_equal. f_equal. rewrite <- Z.div_mod by lia. reflexivity.
      * rewrite Nat2Z.inj_succ, Z.pow_succ_r in H by lia. split; [apply Z.div_pos; lia|apply Z.div_lt_upper_bound; lia].
Qed.
Lemma digits_chars f n c : 0 <= n -> In c (digits_of f n) -> exists d, 0 <= d < 10 /\ c = digit d.
Proof.
  revert n. induction f as [|f IH]; intros n Hn H; [destruct H|]. cbn [digits_of] in H. destruct (Z.ltb_spec n 10).
  - destruct H as [<-|[]]. exists n. split; [lia|reflexivity].
  - apply in_app_iff in H. destruct H as [H|[<-|[]]]; [apply (IH (n / 10)); [apply Z.div_pos; lia|exact H]|]. exists (n mod 10). split; [apply Z.mod_pos_bound; lia|reflexivity].
Qed.
Lemma digits_cons f n : exists c l, digits_of (S f) n = c :: l.
Proof. cbn [digits_of]. destruct (n <? 10); [eauto|]. destruct (digits_of f (n / 10)); cbn; eauto. Qed.
Lemma to_string_chars z c : In c (to_string z) -> is_space c = false /\ c <> comma /\ c <> newline.
Proof.
  unfold to_string. destruct (Z.ltb_spec z 0).
  - intros [<-|H']; [repeat split; discriminate|]. apply digits_chars in H'; [|lia]. destruct H' as (d & Hd & ->). destruct (digit_ok d Hd) as (_ & ? & ? & ? & _). auto.
  - intros H'. apply digits_chars in H'; [|lia]. destruct H' as (d & Hd & ->). destruct (digit_ok d Hd) as (_ & ? & ? & ? & _). auto.
Qed.
Lemma stoi_to_string z : int_range z -> stoi (to_string z) = Ok z /\ stoi (" "%char :: to_string z) = Ok z.
Proof.
  unfold int_range. intros H. assert (S1 : stoi (" "%char :: to_string z) = stoi (to_string z)) by (unfold stoi; cbn [skip_space]; reflexivity).
  rewrite S1. assert (K : stoi (to_string z) = Ok z); [|tauto]. unfold stoi, to_string. destruct (Z.ltb_spec z 0).
  - cbn [skip_space]. change (is_space "-") with false. cbn iota. change (Ascii.eqb "-" "-") with true. cbn iota.
    rewrite <- (app_nil_r (digits_of 11 (- z))), read_digits_of by (change (10 ^ Z.of_nat 11) with 100000000000; lia). cbn [read_digits].
    rewrite Z.opp_involutive. destruct (Z.leb_spec (-2147483648) z), (Z.leb_spec z 2147483647); try lia. reflexivity.
  - destruct (digits_cons 10 z) as (c & l & E). assert (I : In c (digits_of 11 z)) by (rewrite E; now left). apply digits_chars in I; [|lia]. destruct I as (d & Hd & Ec).
    destruct (digit_ok d Hd) as (_ & Sp & _ & _ & Hm & Hp). rewrite <- Ec in *.
    assert (Q : skip_space (digits_of 11 z) = digits_of 11 z) by (rewrite E; cbn [skip_space]; now rewrite Sp).
    rewrite Q. rewrite E at 1. destruct (Ascii.eqb_spec c "-") as [?|_]; [congruence|]. destruct (Ascii.eqb_spec c "+") as [?|_]; [congruence|].
    rewrite <- E. rewrite <- (app_nil_r (digits_of 11 z)), read_digits_of by (change (10 ^ Z.of_nat 11) with 100000000000; lia). cbn [read_digits].
    destruct (Z.leb_spec (-2147483648) z), (Z.leb_spec z 2147483647); try lia. reflexivity.
Qed.

(** ** Splitting *)
Lemma split_one d a : ~ In d a -> forall b cur, split_aux d (a ++ d :: b) cur = (cur ++ a) :: split_aux d b [].
Proof.
  induction a as [|c a IH]; intros H b cur; cbn [app split_aux].
  - rewrite Ascii.eqb_refl, app_nil_r. reflexivity.
  - destruct (Ascii.eqb_spec c d) as [->|_]; [exfalso; apply H; now left|]. rewrite IH by (intros Hi; apply H; now right). now rewrite <- app_assoc.
Qed.
Lemma split_last d a : ~ In d a -> forall cur, split_aux d a cur = match cur ++ a with [] => [] | x => [x] end.
Proof.
  induction a as [|c a IH]; intros H cur; cbn [split_aux].
  - rewrite app_nil_r. now destruct cur.
  - destruct (Ascii.eqb_spec c d) as [->|_]; [exfalso; apply H; now left|]. rewrite IH by (intros Hi; apply H; now right). now rewrite <- app_assoc.
Qed.
Lemma split_join l : l <> [] -> split comma (" "%char :: join l) = map (fun z => " "%char :: to_string z) l.
Proof.
  assert (Hc : forall z, ~ In comma (" "%char :: to_string z)) by (intros z [H|H]; [discriminate|apply to_string_chars in H; tauto]).
  unfold split. induction l as [|z l IH]; [congruence|]. intros _. destruct l as [|y l].
  - cbn [join map]. rewrite split_last by apply Hc. reflexivity.
  - change (" "%char :: join (z :: y :: l)) with ((" "%char :: to_string z) ++ comma :: (" "%char :: join (y :: l))).
    rewrite split_one by apply Hc. rewrite IH by discriminate. reflexivity.
Qed.

(** ** Accessors *)
Lemma firstn_ins (a r xs : list Z) x i : length a = i -> firstn (S i) (a ++ [x] ++ r) ++ xs = a ++ x :: xs.
Proof. intros <-. induction a as [|b a IH]; cbn [length firstn app]; [reflexivity|]. f_equal. exact IH. Qed.
Lemma read_elems_ok xs : forall i l, (forall z, In z xs -> int_range z) -> (i + length xs = length l)%nat ->
  read_elems (map (fun z => " "%char :: to_string z) xs) i l = (firstn i l ++ xs, Ok (length l)).
Proof.
  induction xs as [|x xs IH]; intros i l Hr Hl; cbn [map read_elems length] in *.
  - rewrite Nat.add_0_r in Hl. subst i. now rewrite firstn_all, app_nil_r.
  - rewrite (proj2 (stoi_to_string x (Hr x (or_introl eq_refl)))). replace (i <? length l)%nat with true by (symmetry; apply Nat.ltb_lt; lia).
    assert (Lf : length (firstn i l) = i) by (rewrite firstn_length; lia).
    assert (Len : length (firstn i l ++ [x] ++ skipn (S i) l) = length l) by (rewrite !app_length, skipn_length, Lf; cbn [length]; lia).
    rewrite IH; [|intros; apply Hr; now right|rewrite Len; lia]. rewrite Len. f_equal.
    apply firstn_ins. exact Lf.
Qed.
Lemma read_print v w : good_value w -> same_type v w -> read_value v (" "%char :: print_value w) = (restored v w, Ok tt).
Proof.
  intros G S. destruct v as [z|d l|s], w as [z'|d' l'|s']; try contradiction; cbn [print_value read_value restored].
  - rewrite (proj2 (stoi_to_string z' G)). reflexivity.
  - destruct G as [Hn Hr]. cbn in S. rewrite split_join by exact Hn. rewrite read_elems_ok by (try assumption; cbn; lia). cbn [firstn app].
    rewrite S, firstn_all, Nat.sub_diag. cbn [repeat]. now rewrite app_nil_r.
  - reflexivity.
Qed.

(** ** Lines *)
Lemma print_no_newline w : good_value w -> ~ In newline (print_value w).
Proof.
  destruct w as [z|d l|s]; cbn [good_value print_value]; intros G H.
  - apply to_string_chars in H. tauto.
  - destruct G as [_ _]. induction l as [|z l IH]; [destruct H|]. destruct l as [|y l].
    + cbn [join] in H. apply to_string_chars in H. tauto.
    + change (join (z :: y :: l)) with (to_string z ++ [comma; " "%char] ++ join (y :: l)) in H. apply in_app_iff in H. destruct H as [H|H]; [apply to_string_chars in H; tauto|].
      apply in_app_iff in H. destruct H as [[H|[H|[]]]|H]; [discriminate|discriminate|]. now apply IH.
  - now apply G.
Qed.
Definition line_of (p : text * value) : text := fst p ++ [" "; "="; " "]%char ++ print_value (snd p).
Lemma split_save c : (forall n v, In (n, v) c -> good_name n /\ good_value v) -> split newline (save c) = map line_of c.
Proof.
  unfold split, save. induction c as [|[n v] c IH]; intros H; [reflexivity|]. cbn [flat_map map].
  unfold save_line at 1. cbn [fst snd].
  replace ((n ++ [" "; "="; " "]%char ++ print_value v ++ [newline]) ++ flat_map save_line c) with (line_of (n, v) ++ newline :: flat_map save_line c).
  2:{ unfold line_of. cbn [fst snd]. rewrite <- !app_assoc. reflexivity. }
  destruct (H n v) as [Gn Gv]; [now left|].
  rewrite split_one.
  - rewrite IH by (intros; apply H; now right). reflexivity.
  - unfold line_of. cbn [fst snd]. intros Hi. apply in_app_iff in Hi. destruct Hi as [Hi|Hi]; [destruct Gn as [_ Gn]; apply Gn in Hi; discriminate|].
    apply in_app_iff in Hi. destruct Hi as [Hi|Hi]; [cbn in Hi; intuition discriminate|]. now apply (print_no_newline v Gv).
Qed.
Lemma word_ok n r : (forall c, In c n -> is_space c = false) -> word (n ++ " "%char :: r) = (n, " "%char :: r).
Proof.
  induction n as [|c n IH]; intros H; cbn [app word].
  - reflexivity.
  - rewrite (H c) by now left. rewrite IH by (intros; apply H; now right). reflexivity.
Qed.
Lemma parse_ok n v : good_name n -> parse_line (line_of (n, v)) = (n, " "%char :: print_value v).
Proof.
  intros [Hn Hs]. unfold parse_line, line_of. cbn [fst snd app].
  assert (K : skip_space (n ++ " "%char :: "="%char :: " "%char :: print_value v) = n ++ " "%char :: "="%char :: " "%char :: print_value v).
  { destruct n as [|c n]; [congruence|]. cbn [app skip_space]. now rewrite (Hs c) by now left. }
  rewrite K, word_ok by exact Hs. cbn [skip_space]. change (is_space " ") with true. cbn iota. cbn [skip_space]. change (is_space "=") with false. cbn iota.
  cbn [word]. change (is_space "=") with false. cbn iota. change (is_space " ") with true. cbn iota. reflexivity.
Qed.

(** ** Loading *)
Lemma text_eqb_spec a b : reflect (a = b) (text_eqb a b).
Proof. unfold text_eqb. destruct (list_eq_dec ascii_dec a b); constructor; assumption. Qed.
Lemma find_in n v c : NoDup (map fst c) -> In (n, v) c -> find_prop n c = Some v.
Proof.
  unfold find_prop. induction c as [|[m w] c IH]; intros D H; [destruct H|]. cbn [find fst]. cbn in D. inversion D as [|? ? D1 D2]; subst.
  destruct (text_eqb_spec m n) as [->|Hm].
  - destruct H as [H|H]; [congruence|]. exfalso. apply D1. now apply (in_map fst) in H.
  - destruct H as [H|H]; [congruence|]. now apply IH.
Qed.
Lemma find_none n c : ~ In n (map fst c) -> find_prop n c = None.
Proof.
  unfold find_prop. induction c as [|[m w] c IH]; intros H; [reflexivity|]. cbn [find fst]. destruct (text_eqb_spec m n) as [->|]; [exfalso; apply H; now left|]. apply IH. intros Hi. apply H. now right.
Qed.
Lemma find_some n v c : find_prop n c = Some v -> In (n, v) c.
Proof.
  unfold find_prop. destruct (find _ c) as [[m w]|] eqn:E; [|discriminate]. intros H. injection H as <-. apply find_some in E. destruct E as [E E']. cbn in E'. destruct (text_eqb_spec m n); [now subst|discriminate].
Qed.
Definition merged (ps : conf) (p : text * value) : text * value :=
  (fst p, match find_prop (fst p) ps with Some w => restored (snd p) w | None => snd p end).
Definition compat (cs ps : conf) : Prop := forall n v w, In (n, v) cs -> In (n, w) ps -> same_type v w.
Lemma set_names n v c : map fst (set_prop n v c) = map fst c.
Proof. unfold set_prop. rewrite map_map. apply map_ext. intros [m w]. cbn [fst]. now destruct (text_eqb m n). Qed.

Lemma load_merge ps : forall cs, good_conf ps -> NoDup (map fst cs) -> compat cs ps -> load_lines (map line_of ps) cs = (map (merged ps) cs, Ok tt).
Proof.
  induction ps as [|[n w] ps IH]; intros cs [D G] Dc C; cbn [map load_lines].
  - f_equal. transitivity (map (fun p : text * value => p) cs); [now rewrite map_id|]. apply map_ext. now intros [m v].
  - destruct (G n w) as [Gn Gw]; [now left|]. cbn in D. inversion D as [|? ? D1 D2]; subst.
    assert (G' : good_conf ps) by (split; [exact D2|intros; apply G; now right]).
    unfold load_line. rewrite parse_ok by exact Gn.
    destruct (in_dec (list_eq_dec ascii_dec) n (map fst cs)) as [I|I].
    + apply in_map_iff in I. destruct I as ([n' v] & E & I). cbn in E. subst n'. rewrite (find_in n v cs Dc I).
      rewrite read_print by (try exact Gw; apply (C n v w I); now left).
      rewrite IH; [|exact G'|now rewrite set_names|].
      * f_equal. unfold set_prop. rewrite map_map. apply map_ext_in. intros [m u] Hm. cbn [fst]. unfold merged. unfold find_prop at 2. cbn [find fst snd].
        replace (text_eqb n m) with (text_eqb m n) by (destruct (text_eqb_spec n m), (text_eqb_spec m n); congruence).
        destruct (text_eqb_spec m n) as [->|Hne]; cbn [fst snd].
        -- rewrite (find_none n ps D1). f_equal. pose proof (find_in n v cs Dc I) as Q. rewrite (find_in n u cs Dc Hm) in Q. now injection Q as ->.
        -- f_equal.
      * intros m u x Hm Hx. unfold set_prop in Hm. apply in_map_iff in Hm. destruct Hm as ([m' u'] & E & Hm). cbn [fst] in E. destruct (text_eqb_spec m' n) as [->|]; injection E as <- <-.
        -- exfalso. apply D1. now apply (in_map fst) in Hx.
        -- apply (C m' u' x Hm). now right.
    + rewrite (find_none n cs I). rewrite IH; [|exact G'|exact Dc|intros m v x Hm Hx; apply (C m v x Hm); now right].
      f_equal. apply map_ext_in. intros [m u] Hm. unfold merged. unfold find_prop at 2. cbn [find fst snd].
      destruct (text_eqb_spec n m) as [->|]; [|reflexivity]. exfalso. apply I. now apply (in_map fst) in Hm.
Qed.
Lemma save_load ps cs : good_conf ps -> NoDup (map fst cs) -> compat cs ps ->
  exists cs', load (save ps) cs = (cs', Ok tt) /\ map fst cs' = map fst cs /\
    forall n v, In (n, v) cs -> (forall w, In (n, w) ps -> In (n, restored v w) cs') /\ ((forall w, ~ In (n, w) ps) -> In (n, v) cs').
Proof.
  intros G D C. exists (map (merged ps) cs). split; [|split].
  - unfold load. rewrite split_save by apply G. now apply load_merge.
  - rewrite map_map. apply map_ext. now intros [m v].
  - intros n v Hv. split.
    + intros w Hw. apply in_map_iff. exists (n, v). split; [|exact Hv]. unfold merged. cbn [fst snd]. now rewrite (find_in n w ps (proj1 G) Hw).
    + intros Hw. apply in_map_iff. exists (n, v). split; [|exact Hv]. unfold merged. cbn [fst snd]. rewrite find_none; [reflexivity|]. intros Hi. apply in_map_iff in Hi. destruct Hi as ([m x] & E & Hi). cbn in E. subst m. now apply (Hw x).
Qed.
(** The same configuration is restored whatever was in the variables. *)
Lemma restore_exact ps : good_conf ps -> forall cs, map fst cs = map fst ps -> Forall2 (fun p q => same_type (snd p) (snd q)) cs ps ->
  load (save ps) cs = (map (fun pq => (fst (fst pq), restored (snd (fst pq)) (snd (snd pq)))) (combine cs ps), Ok tt).
Proof.
  intros G cs Hn F. unfold load. rewrite split_save by apply G. rewrite load_merge; [|exact G|rewrite Hn; apply G|].
  - f_equal. assert (K : forall p q, In (p, q) (combine cs ps) -> merged ps p = (fst p, restored (snd p) (snd q))).
    { intros [n v] [m w] Hi. assert (n = m). { clear - Hn Hi. revert ps Hn Hi. induction cs as [|[a b] cs IH]; intros [|[c d] ps] Hn Hi; try contradiction. cbn in Hn. injection Hn as -> Hn. destruct Hi as [Hi|Hi]; [congruence|]. now apply (IH ps). }
      subst m. unfold merged. cbn [fst snd]. apply in_combine_r in Hi. now rewrite (find_in n w ps (proj1 G) Hi). }
    clear - F K. revert K. generalize (merged ps). intros g K. induction F as [|p q cs' ps' H F IH]; [reflexivity|].
    assert (K1 : g p = (fst p, restored (snd p) (snd q))) by (apply K; now left).
    cbn [map combine fst snd]. rewrite K1. f_equal. apply IH. intros; apply K; now right.
  - intros n v w Hv Hw. assert (K : forall p q, In (p, q) (combine cs ps) -> same_type (snd p) (snd q)).
    { clear - F. induction F; intros p q Hi; [destruct Hi|]. destruct Hi as [Hi|Hi]; [now injection Hi as <- <-|now apply IHF]. }
    assert (exists w', In ((n, v), (n, w')) (combine cs ps)) as (w' & Hc).
    { clear - Hn Hv. revert ps Hn. induction cs as [|[a b] cs IH]; intros [|[c d] ps] Hn; try contradiction; try discriminate. cbn in Hn. injection Hn as -> Hn. destruct Hv as [Hv|Hv].
      - injection Hv as <- <-. exists d. now left.
      - destruct (IH Hv ps Hn) as (w' & H). exists w'. now right. }
    pose proof (K _ _ Hc) as S. cbn in S. apply in_combine_r in Hc. pose proof (find_in n w ps (proj1 G) Hw) as Q. rewrite (find_in n w' ps (proj1 G) Hc) in Q. injection Q as <-. exact S.
Qed.

(** ** Unknown properties are ignored *)
Lemma unknown_line c l : ~ In (fst (parse_line l)) (map fst c) -> load_line c l = (c, Ok tt).
Proof. intros H. unfold load_line. destruct (parse_line l) as [k t]. cbn [fst] in H. now rewrite find_none. Qed.

(** ** Memory safety *)
(** A line fits when it does not hold more elements than the array it names. *)
Definition line_fits (c : conf) (l : text) : Prop :=
  forall d a, In (fst (parse_line l), VArr d a) c -> (length (split comma (snd (parse_line l))) <= length a)%nat.
Definition shapes (c : conf) : conf := map (fun p => (fst p, shape (snd p))) c.
Lemma stoi_no_ub t : stoi t <> UB.
Proof. unfold stoi. destruct (match skip_space t with [] => _ | _ => _ end) as [neg l]. destruct (read_digits l None); [|discriminate]. destruct (_ && _); discriminate. Qed.
Lemma read_elems_safe els : forall i l, (i + length els <= length l)%nat -> snd (read_elems els i l) <> UB /\ length (fst (read_elems els i l)) = length l /\ (forall j, snd (read_elems els i l) = Ok j -> (j <= length l)%nat).
Proof.
  induction els as [|e els IH]; intros i l H; cbn [read_elems length] in *.
  - split; [discriminate|]. split; [reflexivity|]. cbn. intros j Q. injection Q as <-. lia.
  - pose proof (stoi_no_ub e). destruct (stoi e) as [v| |]; [|split; [discriminate|split; [reflexivity|discriminate]]|congruence].
    replace (i <? length l)%nat with true by (symmetry; apply Nat.ltb_lt; lia).
    assert (Len : length (firstn i l ++ [v] ++ skipn (S i) l) = length l) by (rewrite !app_length, firstn_length, skipn_length; cbn [length]; lia).
    destruct (IH (S i) (firstn i l ++ [v] ++ skipn (S i) l)) as (A & B & C); [lia|]. rewrite Len in *. auto.
Qed.
Lemma read_value_safe v t : (forall d a, v = VArr d a -> (length (split comma t) <= length a)%nat) -> snd (read_value v t) <> UB /\ shape (fst (read_value v t)) = shape v.
Proof.
  intros H. destruct v as [z|d l|s]; cbn [read_value].
  - pose proof (stoi_no_ub t). destruct (stoi t); [split; [discriminate|reflexivity]|split; [discriminate|reflexivity]|congruence].
  - pose proof (read_elems_safe (split comma t) 0 l) as (A & B & C); [cbn; now apply (H d l)|].
    assert (Sh : forall x y : list Z, length x = length y -> map (fun _ => 0) x = map (fun _ => 0) y).
    { clear. induction x as [|a x IH]; intros [|b y] E; try discriminate; [reflexivity|]. cbn. f_equal. apply IH. now injection E. }
    destruct (read_elems (split comma t) 0 l) as [l' [j| |]]; cbn [fst snd] in *.
    + split; [discriminate|]. cbn [shape]. f_equal. apply Sh. rewrite app_length, firstn_length, repeat_length. specialize (C j eq_refl). lia.
    + split; [discriminate|]. cbn [shape]. f_equal. now apply Sh.
    + congruence.
  - split; [discriminate|reflexivity].
Qed.
Lemma shapes_set k v v' c : find_prop k c = Some v -> NoDup (map fst c) -> shape v' = shape v -> shapes (set_prop k v' c) = shapes c.
Proof.
  intros F D S. unfold shapes, set_prop. rewrite map_map. apply map_ext_in. intros [m u] Hm. cbn [fst]. destruct (text_eqb_spec m k) as [->|]; [|reflexivity]. cbn [fst snd]. f_equal.
  rewrite (find_in k u c D Hm) in F. now injection F as ->.
Qed.
Lemma shapes_names c : map fst (shapes c) = map fst c.
Proof. unfold shapes. rewrite map_map. reflexivity. Qed.
Lemma fits_shapes c c' l : shapes c = shapes c' -> line_fits c l -> line_fits c' l.
Proof.
  intros S F d a Hi. assert (In (fst (parse_line l), shape (VArr d a)) (shapes c)).
  { rewrite S. unfold shapes. apply in_map_iff. exists (fst (parse_line l), VArr d a). auto. }
  unfold shapes in H. apply in_map_iff in H. destruct H as ([m u] & E & H). cbn [fst snd] in E. injection E as -> E. destruct u as [|d2 a2|]; try discriminate. cbn in E. injection E as -> E.
  assert (length a2 = length a) by (apply (f_equal (@length Z)) in E; now rewrite !map_length in E). rewrite <- H0. now apply (F d a2).
Qed.
Lemma load_line_safe c l : NoDup (map fst c) -> line_fits c l -> snd (load_line c l) <> UB /\ shapes (fst (load_line c l)) = shapes c.
Proof.
  intros D F. unfold load_line. unfold line_fits in F. destruct (parse_line l) as [k t]. cbn [fst snd] in F. destruct (find_prop k c) as [v|] eqn:E; [|split; [discriminate|reflexivity]].
  destruct (read_value_safe v t) as [A B].
  - intros d a ->. apply (F d a). now apply find_some.
  - destruct (read_value v t) as [v' r]. cbn [fst snd] in *. split; [exact A|]. now apply (shapes_set k v).
Qed.
Lemma load_safe file : forall c, NoDup (map fst c) -> (forall l, In l (split newline file) -> line_fits c l) -> snd (load file c) <> UB /\ shapes (fst (load file c)) = shapes c.
Proof.
  unfold load. generalize (split newline file). intros ls. induction ls as [|l ls IH]; intros c D F; cbn [load_lines]; [split; [discriminate|reflexivity]|].
  destruct (load_line_safe c l D (F l (or_introl eq_refl))) as [A B]. destruct (load_line c l) as [c' [u| |]]; cbn [fst snd] in *; [|split; [discriminate|exact B]|congruence].
  assert (D' : NoDup (map fst c')) by (rewrite <- (shapes_names c'), B, shapes_names; exact D).
  destruct (IH c' D') as [A' B']; [intros x Hx; apply (fits_shapes c); [now symmetry|apply F; now right]|]. split; [exact A'|]. congruence.
Qed.
(** One element too many is written past the end of the array. *)
Lemma read_elems_over els : forall i l, (length l < i + length els)%nat -> (i <= length l)%nat -> (forall e, In e els -> exists v, stoi e = Ok v) -> snd (read_elems els i l) = UB.
Proof.
  induction els as [|e els IH]; intros i l H Hi F; cbn [length] in H; [lia|]. cbn [read_elems]. destruct (F e (or_introl eq_refl)) as (v & ->).
  destruct (Nat.ltb_spec i (length l)); [|reflexivity].
  assert (Len : length (firstn i l ++ [v] ++ skipn (S i) l) = length l) by (rewrite !app_length, firstn_length, skipn_length; cbn [length]; lia).
  apply IH; rewrite ?Len; [lia|lia|]. intros; apply F; now right.
Qed.
Lemma too_long d l w : good_value (VArr d w) -> (length l < length w)%nat -> snd (read_value (VArr d l) (" "%char :: print_value (VArr d w))) = UB.
Proof.
  intros [Hn Hr] H. cbn [print_value read_value]. rewrite split_join by exact Hn.
  assert (K : snd (read_elems (map (fun z => " "%char :: to_string z) w) 0 l) = UB).
  { apply read_elems_over; [rewrite map_length; exact H|lia|]. intros e He. apply in_map_iff in He. destruct He as (z & <- & Hz). exists z. apply stoi_to_string. now apply Hr. }
  destruct (read_elems _ 0 l) as [l' [j| |]]; cbn [snd] in *; [discriminate|discriminate|reflexivity].
Qed.

(** ** Registration *)
Lemma add_twice n v len c : In n (map fst c) -> NoDup (map fst c) -> conf_add n v len c = Fault.
Proof.
  intros H D. unfold conf_add. destruct (match v with VArr _ l => negb (len =? length l)%nat | _ => false end); [reflexivity|]. apply in_map_iff in H. destruct H as ([m w] & E & H). cbn in E. subst m. now rewrite (find_in n w c D H).
Qed.
Lemma add_new n v len c : ~ In n (map fst c) -> (forall d l, v = VArr d l -> len = length l) -> conf_add n v len c = Ok (c ++ [(n, v)]).
Proof.
  intros H L. unfold conf_add. rewrite find_none by exact H. destruct v as [z|d l|s]; try reflexivity. rewrite (L d l eq_refl), Nat.eqb_refl. reflexivity.
Qed.
Lemma add_length n d l len c : len <> length l -> conf_add n (VArr d l) len c = Fault.
Proof. intros H. unfold conf_add. apply Nat.eqb_neq in H. now rewrite H. Qed.
Lemma NoDup_snoc {A} (l : list A) a : NoDup l -> ~ In a l -> NoDup (l ++ [a]).
Proof. intros D H. apply NoDup_rev in D. rewrite <- (rev_involutive (l ++ [a])). apply NoDup_rev. rewrite rev_app_distr. cbn. constructor; [now rewrite <- in_rev|exact D]. Qed.
Lemma add_inv n v len c c' : NoDup (map fst c) -> conf_add n v len c = Ok c' -> NoDup (map fst c') /\ forall m w, In (m, w) c' <-> In (m, w) c \/ (m = n /\ w = v).
Proof.
  intros D H. unfold conf_add in H. destruct (match v with VArr _ l => negb (len =? length l)%nat | _ => false end); [discriminate|].
  destruct (find_prop n c) as [u|] eqn:E; [discriminate|]. injection H as <-. split.
  - rewrite map_app. cbn [map fst]. apply NoDup_snoc; [exact D|]. intros Hi. apply in_map_iff in Hi. destruct Hi as ([m w] & Q & Hi). cbn in Q. subst m. rewrite (find_in n w c D Hi) in E. discriminate.
  - intros m w. rewrite in_app_iff. cbn [In]. split; [intros [K|[K|[]]]; [now left|right; injection K as <- <-; auto]|intros [K|[-> ->]]; auto].
Qed.
Lemma empty_array : NoDup (map fst [(["a"%char], VArr 0 [])]) /\ (forall n v, In (n, v) [(["a"%char], VArr 0 [])] -> good_name n) /\
  snd (load (save [(["a"%char], VArr 0 [])]) [(["a"%char], VArr 0 [])]) = Fault.
Proof.
  split; [repeat constructor; intros []|]. split; [|reflexivity]. intros n v [H|[]]. injection H as <- <-. split; [discriminate|]. intros c [<-|[]]. reflexivity.
Qed.
