(** Proofs about keys, gamepad, mouse and space navigator. *)
From Coq Require Import String Ascii.
From Verif Require Import Prelude Num KeyModel.
Open Scope Z_scope.

(** ** Keys *)
(** Specification: key number i of the list is pending when its character was read after the last report. *)
Definition kpend (name : string) (code : ascii) (b : bool) (e : kev) : bool :=
  match e with
  | Press c => b || Ascii.eqb c code
  | ReadKey i => if String.eqb i name then false else b
  end.
Definition pending (name : string) (code : ascii) (es : list kev) : bool := fold_left (kpend name code) es false.

Lemma add_loop codes : forall names l, (k_nof l + length codes <= length names)%nat -> (k_nof l + length codes < 256)%nat ->
  exists l', add_keys_loop codes names l = Ok l' /\ k_nof l' = (k_nof l + length codes)%nat /\
    k_list l' = k_list l ++ map (fun p => {| k_name := fst p; k_code := snd p; k_event := false |}) (combine (skipn (k_nof l) names) codes).
Proof.
  induction codes as [|c cs IH]; intros names l Hn Hl; cbn [add_keys_loop length] in *.
  - exists l. split; [reflexivity|]. split; [lia|]. rewrite combine_nil. cbn. now rewrite app_nil_r.
  - destruct (nth_error names (k_nof l)) as [n|] eqn:E; [|apply nth_error_None in E; lia].
    destruct (IH names {| k_nof := Nat.modulo (k_nof l + 1) 256; k_list := k_list l ++ [{| k_name := n; k_code := c; k_event := false |}] |}) as (l' & E1 & E2 & E3).
    + cbn [k_nof]. rewrite Nat.mod_small by lia. lia.
    + cbn [k_nof]. rewrite Nat.mod_small by lia. lia.
    + exists l'. split; [exact E1|]. cbn [k_nof k_list] in *. rewrite Nat.mod_small in * by lia. split; [lia|]. rewrite E3, <- app_assoc. f_equal.
      assert (S1 : skipn (k_nof l) names = n :: skipn (k_nof l + 1) names).
      { clear - E. revert names E. induction (k_nof l) as [|k IHk]; intros [|x names] E; try discriminate; cbn in *; [now injection E as ->|]. now apply IHk. }
      rewrite S1. reflexivity.
Qed.

Definition fresh (names : list string) (codes : list ascii) : list keyrec := map (fun p => {| k_name := fst p; k_code := snd p; k_event := false |}) (combine names codes).
Lemma add_ok codes names : (length codes <= length names)%nat -> (length codes < 256)%nat ->
  add_keys codes names keys0 = Ok {| k_nof := length codes; k_list := fresh names codes |}.
Proof.
  intros H1 H2. unfold add_keys. destruct (add_loop codes names {| k_nof := 0%nat; k_list := [] |} H1 H2) as ([n l] & E1 & E2 & E3).
  unfold keys0. cbn [k_nof k_list] in *. rewrite E1, E2, E3. reflexivity.
Qed.

(** The state reached by a history: entry i has event = pending. *)
Definition image (es : list kev) (names : list string) (codes : list ascii) : list keyrec :=
  map (fun p => {| k_name := fst p; k_code := snd p; k_event := pending (fst p) (snd p) es |}) (combine names codes).
Lemma pending_snoc n c es e : pending n c (es ++ [e]) = kpend n c (pending n c es) e.
Proof. unfold pending. now rewrite fold_left_app. Qed.

Lemma press_image n c l : (length l <= n)%nat -> press_in n c l = map (fun k => if Ascii.eqb c (k_code k) then {| k_name := k_name k; k_code := k_code k; k_event := true |} else k) l.
Proof. revert n. induction l as [|k l IH]; intros [|n] H; cbn in *; try reflexivity; [lia|]. f_equal. apply IH. lia. Qed.
Lemma read_none id : forall l n, (forall k, In k l -> k_name k <> id) -> read_in n id l = (l, false).
Proof.
  induction l as [|k l IH]; intros n H; destruct n; cbn; try reflexivity.
  destruct (String.eqb_spec (k_name k) id) as [E|_]; [exfalso; apply (H k); [now left|exact E]|]. rewrite IH; [reflexivity|]. intros; apply H; now right.
Qed.
Lemma read_image id : forall l n, (length l <= n)%nat -> NoDup (map k_name l) ->
  fst (read_in n id l) = map (fun k => if String.eqb (k_name k) id then {| k_name := k_name k; k_code := k_code k; k_event := false |} else k) l /\
  (forall k, In k l -> k_name k = id -> snd (read_in n id l) = k_event k).
Proof.
  induction l as [|k l IH]; intros [|n] H D; cbn [length] in H; try lia; cbn [read_in map].
  - split; [reflexivity|intros ? []].
  - split; [reflexivity|intros ? []].
  - cbn in D. inversion D as [|? ? D1 D2]; subst. destruct (String.eqb_spec (k_name k) id) as [E|E].
    + cbn [fst snd]. split.
      * f_equal. subst id. clear - D1. induction l as [|j l IH]; [reflexivity|]. cbn. destruct (String.eqb_spec (k_name j) (k_name k)) as [Q|_]; [exfalso; apply D1; left; exact Q|].
        f_equal. apply IH. intros Hi. apply D1. now right.
      * intros j [->|Hj] Q; [reflexivity|]. exfalso. apply D1. rewrite E, <- Q. now apply in_map.
    + destruct (IH n) as [A B]; [lia|assumption|]. destruct (read_in n id l) as [l' r]. cbn [fst snd] in *. split; [now rewrite A|].
      intros j [->|Hj] Q; [congruence|]. now apply B.
Qed.
Lemma image_names es names codes : map k_name (image es names codes) = map fst (combine names codes).
Proof. unfold image. now rewrite map_map. Qed.
Lemma krun_image names codes es : NoDup (map fst (combine names codes)) -> (length codes <= length names)%nat ->
  krun {| k_nof := length codes; k_list := fresh names codes |} es = {| k_nof := length codes; k_list := image es names codes |}.
Proof.
  intros D HL. induction es as [|e es IH] using rev_ind; [reflexivity|]. unfold krun in *. rewrite fold_left_app, IH. cbn [fold_left].
  assert (Len : (length (image es names codes) <= length codes)%nat) by (unfold image; rewrite map_length, combine_length; lia).
  destruct e as [c|i]; cbn [kstep fst].
  - unfold press. cbn [k_nof k_list]. f_equal. rewrite press_image by exact Len. unfold image. rewrite map_map. apply map_ext. intros [n k]. cbn [fst snd k_code k_name].
    rewrite pending_snoc. cbn [kpend]. destruct (Ascii.eqb c k); [now rewrite orb_true_r|now rewrite orb_false_r].
  - unfold read_key. cbn [k_nof k_list]. destruct (read_image i (image es names codes) (length codes) Len) as [A _]; [now rewrite image_names|].
    destruct (read_in (length codes) i (image es names codes)) as [l r]. cbn [fst] in *. f_equal. rewrite A. unfold image. rewrite map_map. apply map_ext. intros [n k]. cbn [fst snd k_code k_name].
    rewrite pending_snoc. cbn [kpend]. rewrite (String.eqb_sym i n). destruct (String.eqb n i); reflexivity.
Qed.
Lemma key_reported codes names es i n c : (length codes <= length names)%nat -> (length codes < 256)%nat -> NoDup names ->
  nth_error names i = Some n -> nth_error codes i = Some c ->
  exists l, add_keys codes names keys0 = Ok l /\ snd (read_key n (krun l es)) = pending n c es.
Proof.
  intros H1 H2 D Hn Hc. exists {| k_nof := length codes; k_list := fresh names codes |}. split; [now apply add_ok|].
  assert (D' : NoDup (map fst (combine names codes))).
  { clear - D. revert codes. induction D as [|x l Hx D IH]; intros [|c codes]; cbn; constructor; auto. intros H. apply Hx. apply in_map_iff in H. destruct H as ([a b] & E & H). cbn in E. subst a. now apply in_combine_l in H. }
  rewrite krun_image by assumption. unfold read_key. cbn [k_nof k_list].
  assert (Len : (length (image es names codes) <= length codes)%nat) by (unfold image; rewrite map_length, combine_length; lia).
  destruct (read_image n (image es names codes) (length codes) Len) as [_ B]; [now rewrite image_names|].
  specialize (B {| k_name := n; k_code := c; k_event := pending n c es |}).
  destruct (read_in (length codes) n (image es names codes)) as [l r]. cbn [snd k_event] in *. apply B; [|reflexivity].
  unfold image. apply in_map_iff. exists (n, c). split; [reflexivity|].
  clear - Hn Hc. revert names codes Hn Hc. induction i as [|i IH]; intros [|x names] [|y codes] Hn Hc; try discriminate; cbn in *; [left; congruence|right; now apply IH].
Qed.

(** ** Gamepad *)
Section X.
  Variable T : num.
  Definition is_button (b : nat) (e : jsev) : bool := ((j_type e =? 1) || (j_type e =? 129)) && (j_number e =? b)%nat.
  Definition is_axis (b : nat) (e : jsev) : bool := ((j_type e =? 2) || (j_type e =? 130)) && (j_number e =? b)%nat.
  Definition last_of (q : jsev -> bool) (es : list jsev) : option jsev := find q (rev es).
  Lemma last_snoc q es e : last_of q (es ++ [e]) = if q e then Some e else last_of q es.
  Proof. unfold last_of. rewrite rev_app_distr. reflexivity. Qed.
  Lemma xbox_snoc x es e : xbox_run T x (es ++ [e]) = xbox_event T (xbox_run T x es) e.
  Proof. unfold xbox_run. now rewrite fold_left_app. Qed.
  Lemma xbox_state es b : (b < 8)%nat -> x_state T (xbox_run T (xbox0 T) es) b = match last_of (is_button b) es with Some e => negb (j_value e =? 0) | None => false end.
  Proof.
    intros Hb. induction es as [|e es IH] using rev_ind; [reflexivity|]. rewrite xbox_snoc, last_snoc. unfold xbox_event. cbn [x_state].
    unfold is_button. rewrite (orb_comm (j_type e =? 1)). destruct ((j_type e =? 129) || (j_type e =? 1)); cbn [andb].
    - destruct (Nat.ltb_spec (j_number e) 8).
      + cbn [x_state]. unfold upd. rewrite (Nat.eqb_sym b). destruct (j_number e =? b)%nat; [reflexivity|exact IH].
      + destruct (Nat.eqb_spec (j_number e) b); [lia|exact IH].
    - destruct (_ || _); [destruct (_ <? _)%nat; exact IH|exact IH].
  Qed.
  Lemma xbox_axis es b : (b < 8)%nat -> x_axis T (xbox_run T (xbox0 T) es) b = match last_of (is_axis b) es with Some e => ndiv T (nofZ T (j_value e)) (nofZ T 32767) | None => nofZ T 0 end.
  Proof.
    intros Hb. induction es as [|e es IH] using rev_ind; [reflexivity|]. rewrite xbox_snoc, last_snoc. unfold xbox_event. cbn [x_axis].
    unfold is_axis. destruct (Z.eqb_spec (j_type e) 129) as [->|]; [destruct (_ <? _)%nat; exact IH|]. destruct (Z.eqb_spec (j_type e) 1) as [->|]; [destruct (_ <? _)%nat; exact IH|].
    cbn [orb]. rewrite (orb_comm (j_type e =? 2)). destruct ((j_type e =? 130) || (j_type e =? 2)); cbn [andb]; [|exact IH].
    destruct (Nat.ltb_spec (j_number e) 8).
    - cbn [x_axis]. unfold upd. rewrite (Nat.eqb_sym b). destruct (j_number e =? b)%nat; [reflexivity|exact IH].
    - destruct (Nat.eqb_spec (j_number e) b); [lia|exact IH].
  Qed.
  Lemma xbox_last x es : es <> [] -> x_last T (xbox_run T x es) = x_state T (xbox_run T x es).
  Proof. intros H. destruct (exists_last H) as (l & e & ->). rewrite xbox_snoc. reflexivity. Qed.
  (** Edges: after an event of button b, button_down/button_up compare with the state before the event. *)
  Lemma xbox_edges es e b : (b < 8)%nat -> is_button b e = true ->
    let before := x_state T (xbox_run T (xbox0 T) es) b in let after := x_state T (xbox_run T (xbox0 T) (es ++ [e])) b in
    x_down T (xbox_run T (xbox0 T) (es ++ [e])) b = after && negb before /\ x_up T (xbox_run T (xbox0 T) (es ++ [e])) b = negb after && before.
  Proof.
    intros Hb He. cbn zeta. rewrite xbox_snoc.
    assert (L : x_last T (xbox_run T (xbox0 T) es) b = x_state T (xbox_run T (xbox0 T) es) b).
    { destruct es as [|a es]; [reflexivity|]. now rewrite xbox_last. }
    unfold is_button in He. apply andb_true_iff in He. destruct He as [H1 H2]. apply Nat.eqb_eq in H2. rewrite orb_comm in H1.
    unfold xbox_event. rewrite H1, H2. replace (b <? 8)%nat with true by (symmetry; now apply Nat.ltb_lt). cbn [x_down x_up x_state]. rewrite !upd_same, L. split; reflexivity.
  Qed.
End X.

(** ** Mouse *)
Definition total (code : Z) (es : list inev) : Z := fold_left (fun s e => if (i_type e =? 2) && (i_code e =? code) then s + i_value e else s) es 0.
Definition last_key (code : Z) (es : list inev) : Z := fold_left (fun s e => if (i_type e =? 1) && (i_code e =? code) then i_value e else s) es 0.
Lemma mouse_ok es m : mouse_run mouse0 es = Ok m ->
  (m_x m = total 0 es /\ m_y m = total 1 es /\ m_z m = total 8 es /\ m_r m = total 6 es) /\
  (m_left m = last_key 272 es /\ m_right m = last_key 273 es /\ m_middle m = last_key 274 es).
Proof.
  unfold mouse_run. revert m. induction es as [|e es IH] using rev_ind; intros m H.
  - injection H as <-. cbn. auto 10.
  - rewrite fold_left_app in H. cbn [fold_left] in H. destruct (fold_left _ es (Ok mouse0)) as [m1| |]; [|discriminate|discriminate]. cbn [bind] in H.
    specialize (IH m1 eq_refl). destruct IH as ((X & Y & Z1 & R1) & L & Rr & M).
    unfold total, last_key in *. rewrite !fold_left_app. cbn [fold_left]. rewrite <- X, <- Y, <- Z1, <- R1, <- L, <- Rr, <- M. clear X Y Z1 R1 L Rr M.
    unfold mouse_event in H. destruct (Z.eqb_spec (i_type e) 1) as [E|E].
    + rewrite E. cbn [Z.eqb Pos.eqb andb] in *. destruct (Z.eqb_spec (i_code e) 272) as [Q|]; [try rewrite Q; injection H as <-; cbn; auto 10|].
      destruct (Z.eqb_spec (i_code e) 274) as [Q|]; [try rewrite Q; injection H as <-; cbn; auto 10|].
      destruct (Z.eqb_spec (i_code e) 273) as [Q|]; try rewrite Q; injection H as <-; cbn; auto 10.
    + cbn [andb]. destruct (Z.eqb_spec (i_type e) 2) as [E2|E2]; [|injection H as <-; cbn; auto 10]. cbn [andb] in *. unfold int_add in H.
      destruct (Z.eqb_spec (i_code e) 0) as [Q|]; [try rewrite Q; destruct (_ && _) in H; [injection H as <-; cbn; auto 10|discriminate]|].
      destruct (Z.eqb_spec (i_code e) 1) as [Q|]; [try rewrite Q; destruct (_ && _) in H; [injection H as <-; cbn; auto 10|discriminate]|].
      destruct (Z.eqb_spec (i_code e) 8) as [Q|]; [try rewrite Q; destruct (_ && _) in H; [injection H as <-; cbn; auto 10|discriminate]|].
      destruct (Z.eqb_spec (i_code e) 6) as [Q|]; [try rewrite Q; destruct (_ && _) in H; [injection H as <-; cbn; auto 10|discriminate]|].
      injection H as <-. cbn. auto 10.
Qed.

(** ** Space navigator *)
Lemma decode_ok x : -32768 <= x <= 32767 -> sn_decode (x mod 256) ((x / 256) mod 256) = x.
Proof.
  intros H. unfold sn_decode.
  assert (B1 : 0 <= x mod 256 < 256) by (apply Z.mod_pos_bound; lia). assert (B2 : 0 <= (x / 256) mod 256 < 256) by (apply Z.mod_pos_bound; lia).
  assert (T : forall y, 0 <= y < 256 -> to_int16 y = y) by (intros y Hy; unfold to_int16; rewrite Z.mod_small by lia; lia).
  rewrite (T _ B1), (T _ B2). replace 255 with (Z.ones 8) by reflexivity. rewrite Z.land_ones by lia. rewrite Z.mod_mod by (cbv; discriminate).
  replace (Z.land (Z.shiftl ((x / 256) mod 256) 8) 65280) with (256 * ((x / 256) mod 256)).
  2:{ rewrite Z.shiftl_mul_pow2 by lia. change (2 ^ 8) with 256. set (h := (x / 256) mod 256) in *.
      replace 65280 with (Z.shiftl (Z.ones 8) 8) by reflexivity. replace (h * 256) with (Z.shiftl h 8) by (rewrite Z.shiftl_mul_pow2; [reflexivity|lia]).
      rewrite <- Z.shiftl_land, Z.land_ones by lia. rewrite (Z.mod_small h) by (change (2 ^ 8) with 256; lia). rewrite Z.shiftl_mul_pow2 by lia. change (2 ^ 8) with 256. ring. }
  assert (E : to_int16 (256 * ((x / 256) mod 256)) = 256 * (x / 256)).
  { unfold to_int16. pose proof (Z.div_mod x 256). assert (D : -128 <= x / 256 <= 127) by (split; [apply Z.div_le_lower_bound; lia|assert (x / 256 < 128) by (apply Z.div_lt_upper_bound; lia); lia]).
    destruct (Z_lt_le_dec (x / 256) 0).
    - assert (M : (x / 256) mod 256 = x / 256 + 256) by (symmetry; apply Z.mod_unique with (-1); lia). rewrite M.
      assert (Q : (256 * (x / 256 + 256) + 32768) mod 65536 = 256 * (x / 256) + 32768) by (symmetry; apply Z.mod_unique with 1; lia). lia.
    - rewrite (Z.mod_small (x / 256)) by lia. rewrite Z.mod_small by lia. lia. }
  rewrite E. change (2 ^ 8) with 256. 
  assert (Q : Z.lor (256 * (x / 256)) (x mod 256) = 256 * (x / 256) + x mod 256).
  { rewrite Z.add_nocarry_lxor; [rewrite Z.lxor_lor; [reflexivity|]|]; apply Z.bits_inj'; intros n Hn; rewrite Z.land_spec, Z.bits_0; replace (256 * (x / 256)) with (Z.shiftl (x / 256) 8) by (rewrite Z.shiftl_mul_pow2 by lia; change (2 ^ 8) with 256; ring);
    replace (x mod 256) with (Z.land x (Z.ones 8)) by (rewrite Z.land_ones by lia; reflexivity); rewrite Z.shiftl_spec by lia; rewrite Z.land_spec;
    (destruct (Z_lt_le_dec n 8); [rewrite (Z.testbit_neg_r _ (n - 8)) by lia; reflexivity|rewrite Z.ones_spec_high by lia; now rewrite andb_false_r, andb_false_r]). }
  rewrite Q. pose proof (Z.div_mod x 256). lia.
Qed.

(** ** sysfs: no read ever has a defined result while the file is open. *)
Lemma sysfs_ub content inverted : sysfs_get (sysfs_new true content inverted) = UB.
Proof.
  unfold sysfs_get, sysfs_new. cbn [sf_open negb]. unfold extract. cbn [sf_failed sf_rest].
  destruct (skip_ws content) as [|c l]; [reflexivity|]. destruct (digits (c :: l) None) as [[v|] r]; reflexivity.
Qed.
(** Even with the member set, only the first read works: the second one is at the end of the file. *)
Definition pin (v i : bool) : sysfs :=
  {| sf_open := true; sf_rest := [if v then "1"%char else "0"%char; "010"%char]; sf_failed := false; sf_inv := Some i |}.
Lemma sysfs_twice v i : exists s, sysfs_get (pin v i) = Ok (s, xorb i v) /\ sysfs_get s = UB.
Proof.
  exists {| sf_open := true; sf_rest := ["010"%char]; sf_failed := false; sf_inv := Some i |}.
  destruct v, i; split; reflexivity.
Qed.
