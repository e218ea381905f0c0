(** Proofs: when the creation of HAL objects succeeds, and what is opened. *)
From Coq Require Import String.
From Verif Require Import Prelude JsonModel JsonSpec JsonProofs.
Import List ListNotations.
Open Scope string_scope.
Open Scope list_scope.
Open Scope nat_scope.

Section Success.
  Context {V : Type} (one zero : V) (L : libs).
  Notation channel := (@channel V). Notation subentry := (@subentry V). Notation deventry := (@deventry V). Notation obj := (@obj V).
  Notation world := (@world V). Notation locals := (@locals V).
  Notation do_channel := (do_channel one zero L). Notation do_sub := (do_sub one zero L). Notation do_device := (do_device one zero L).
  Notation do_devices := (do_devices one zero L). Notation create := (@JsonModel.create V L). Notation load := (load one zero L).
  Notation object := (object one zero). Notation of_sub := (of_sub one zero). Notation of_device := (of_device one zero). Notation meant := (meant one zero).

  Lemma create_ok w o need : is_type (o_type o) = true -> o_id o <> "" -> o_dev o <> "" -> has L (o_lib o) (o_type o) = true ->
    (o_type o = "Fqd" -> three L (o_lib o) = need) -> ~ In (o_in o, o_id o) (ids (made w)) -> snd (create w o need) = Ok tt.
  Proof.
    intros It Hi Hd Hh H3 Hc. unfold JsonModel.create. seq (o_type o) ""; [exfalso; exact (is_type_nonempty _ It e)|]. seq (o_id o) ""; [contradiction|].
    seq (o_dev o) ""; [contradiction|]. cbn [orb]. rewrite Hh. cbn [negb]. rewrite direction_table, It.
    assert (X : String.eqb (o_type o) "Fqd" && negb (Bool.eqb (three L (o_lib o)) need) = false).
    { seq (o_type o) "Fqd"; [|reflexivity]. rewrite (H3 e), Bool.eqb_reflx. reflexivity. }
    rewrite X. unfold add. destruct (existsb _ (made w)) eqn:C; [|reflexivity]. exfalso. apply Hc. apply clash_spec. exact C.
  Qed.

  Lemma channel_ok w l sub n c t : l_lib l <> "" -> l_dev l <> "" -> In (l_lib l) (known w) -> possible L (l_lib l) t n c ->
    (c_type c = "" -> l_type l = t) -> ~ In (is_input (type_for t c), c_sig c) (ids (made w)) ->
    exists l', snd (do_channel w l sub n c) = Ok l'.
  Proof.
    intros Hl Hd Hk (P1 & P2 & P3 & P4 & P5 & P6) Ht Hc. unfold JsonModel.do_channel.
    assert (S : stoi_ok n = true) by (unfold stoi_ok; lia). rewrite S. cbn [negb]. seq (l_lib l) ""; [contradiction|].
    assert (K : existsb (String.eqb (l_lib l)) (known w) = true) by (apply existsb_exists; exists (l_lib l); rewrite String.eqb_refl; auto).
    rewrite K. cbn [negb]. seq (l_dev l) ""; [contradiction|]. unfold parse. destruct (c_cal c) as [k|]; [|contradiction].
    cbn [l_ctype l_lib l_dev l_type l_sig l_unit l_args l_inv l_cal l_safe].
    assert (Ty : type_for t c = if String.eqb (c_type c) "" then l_type l else c_type c).
    { unfold type_for. seq (c_type c) ""; [symmetry; auto|reflexivity]. }
    set (l1 := if String.eqb (c_type c) "" then _ else _).
    assert (H1 : l_lib l1 = l_lib l /\ l_dev l1 = l_dev l /\ l_ctype l1 = type_for t c /\ l_sig l1 = c_sig c).
    { unfold l1. rewrite Ty. destruct (String.eqb (c_type c) ""); auto. }
    clearbody l1. destruct H1 as (A1 & A2 & A3 & A4). rewrite A1, A2, A3, A4. set (tt' := type_for t c) in *.
    destruct (String.eqb tt' "Fqd" && comedi (l_lib l)) eqn:Enc.
    - apply andb_prop in Enc as [E1 E2]. apply String.eqb_eq in E1. destruct (P6 E1) as [Q1 Q2]. specialize (Q2 E2). destruct (c_enc c) as [[ea eb] ez]. destruct Q2 as [Qa Qb].
      assert (Na : forall x : option Z, x <> Some (-1)%Z -> (match x with Some v => v | None => 0 end =? -1)%Z = false).
      { intros [v|] Hv; [|reflexivity]. apply Z.eqb_neq. congruence. }
      rewrite (Na ea Qa), (Na eb Qb). cbn [orb].
      match goal with |- context [create w ?o true] => assert (C : snd (create w o true) = Ok tt); [|destruct (create w o true) as [w1 r1]] end.
      { apply create_ok; cbn; auto. intros _. congruence. rewrite direction_eq. exact Hc. }
      cbn [snd] in C |- *. rewrite C. cbn. eauto.
    - rewrite type_table, P4. destruct (is_real tt').
      + match goal with |- context [create w ?o false] => assert (C : snd (create w o false) = Ok tt); [|destruct (create w o false) as [w1 r1]] end.
        { apply create_ok; cbn; auto.
          - intros E. destruct (P6 E) as [Q _]. rewrite E in Enc. cbn in Enc. congruence.
          - rewrite direction_eq. exact Hc. }
        cbn [snd] in C |- *. rewrite C. cbn. eauto.
      + match goal with |- context [create w ?o false] => assert (C : snd (create w o false) = Ok tt); [|destruct (create w o false) as [w1 r1]] end.
        { apply create_ok; cbn; auto.
          - intros E. destruct (P6 E) as [Q _]. rewrite E in Enc. cbn in Enc. congruence.
          - rewrite direction_eq. exact Hc. }
        cbn [snd] in C |- *. rewrite C. cbn. eauto.
  Qed.

  (** The identifiers of the objects still to be created are new. *)
  Definition fresh (w : world) (os : list obj) : Prop := NoDup (ids (made w) ++ ids os).
  Lemma fresh_step w w' o os : grown w w' [o] -> fresh w (o :: os) -> fresh w' os.
  Proof. intros [G _] F. unfold fresh in *. rewrite G. unfold ids in *. rewrite map_app, <- app_assoc. exact F. Qed.
  Lemma fresh_grown w w' a b : grown w w' a -> fresh w (a ++ b) -> fresh w' b.
  Proof. intros [G _] F. unfold fresh in *. rewrite G. unfold ids in *. rewrite map_app in *. rewrite <- app_assoc. exact F. Qed.
  Lemma fresh_notin w o os : fresh w (o :: os) -> ~ In (o_in o, o_id o) (ids (made w)).
  Proof.
    intros F I. unfold fresh in F. cbn in F. apply NoDup_remove_2 in F. apply F. apply in_or_app. left. exact I.
  Qed.

  Lemma sub_ok sub : forall rest pre w l, clean l -> length (types_in (pre ++ rest)) <= 1 -> l_type l = the (types_in pre) ->
    (rest <> [] -> l_lib l <> "" /\ l_dev l <> "" /\ In (l_lib l) (known w)) ->
    (forall k, ~ In (SOther k) rest) ->
    (forall m c, In (SChan m c) rest -> possible L (l_lib l) (the (types_in (pre ++ rest))) m c) ->
    (forall a m c b, rest = a ++ SChan m c :: b -> c_type c = "" -> the (types_in (pre ++ a)) <> "") ->
    fresh w (of_sub (l_lib l) (l_dev l) (the (types_in (pre ++ rest))) sub rest) ->
    exists l', snd (do_sub w l sub rest) = Ok l' /\ clean l' /\ l_lib l' = l_lib l /\ l_dev l' = l_dev l /\
      known (fst (do_sub w l sub rest)) = known w /\ opened (fst (do_sub w l sub rest)) = opened w.
  Proof.
    induction rest as [|e rest IH]; intros pre w l C U T H1 H2 H3 H4 F; cbn [JsonModel.do_sub].
    - exists l. auto 10.
    - destruct (H1 ltac:(discriminate)) as (Hl & Hd & Hk).
      assert (Ho : forall k, ~ In (SOther k) rest) by (intros k Hk'; apply (H2 k); right; exact Hk').
      destruct e as [t|n c|k].
      + match goal with |- context [do_sub w ?x sub rest] => set (l1 := x) end.
        specialize (IH (pre ++ [SType t]) w l1). rewrite <- app_assoc in IH. cbn [app] in IH.
        apply IH; auto.
        * cbn. unfold types_in. rewrite flat_map_snoc. symmetry. apply the_snoc.
          unfold types_in in U. rewrite flat_map_app in U. rewrite app_length in *. cbn in U |- *. lia.
        * intros m c Hm. apply H3. right. exact Hm.
        * intros a m c b E Et. rewrite <- app_assoc. apply (H4 (SType t :: a) m c b); [rewrite E; reflexivity|exact Et].
      + set (ty := the (types_in (pre ++ SChan n c :: rest))) in *.
        assert (Tc : c_type c = "" -> l_type l = ty).
        { intros Et. specialize (H4 [] n c rest eq_refl Et). rewrite app_nil_r in H4. rewrite T. unfold ty, types_in in *. rewrite flat_map_app. symmetry. apply the_app. exact H4. }
        assert (Fn : ~ In (is_input (type_for ty c), c_sig c) (ids (made w))).
        { cbn [JsonSpec.of_sub flat_map app] in F. exact (fresh_notin _ _ _ F). }
        destruct (channel_ok w l sub n c ty Hl Hd Hk (H3 n c (or_introl eq_refl)) Tc Fn) as (l0 & E0).
        pose proof (channel_cases one zero L w l sub n c C) as H. cbn zeta in H. destruct (do_channel w l sub n c) as [w1 r1]. cbn [fst snd] in *.
        destruct H as [[_ [H|[H _]]]|(l' & E' & C' & B1 & B2 & B3 & G & K1 & K2 & _)]; [congruence|congruence|]. rewrite E' in E0. injection E0 as E0. subst l'. rewrite E'.
        specialize (IH (pre ++ [SChan n c]) w1 l0 C'). rewrite <- app_assoc in IH. cbn [app] in IH.
        assert (Tp : the (types_in (pre ++ [SChan n c])) = the (types_in pre)) by (unfold types_in; rewrite flat_map_snoc; cbn; rewrite app_nil_r; reflexivity).
        rewrite B1, B2, B3, K1, K2, Tp in IH. apply IH; auto.
        * intros m c' Hm. apply H3. right. exact Hm.
        * intros a m c' b E Et. rewrite <- app_assoc. apply (H4 (SChan n c :: a) m c' b); [rewrite E; reflexivity|exact Et].
        * assert (Eo : object (l_lib l) (l_dev l) ty sub n c = object (l_lib l) (l_dev l) (l_type l) sub n c).
          { unfold JsonSpec.object, type_for. seq (c_type c) ""; [rewrite (Tc e)|]; reflexivity. }
          cbn [JsonSpec.of_sub flat_map app] in F. rewrite Eo in F. exact (fresh_step _ _ _ _ G F).
      + exfalso. apply (H2 k). left. reflexivity.
  Qed.

  Lemma device_ok : forall rest pre w l, clean l -> length (libs_in (pre ++ rest)) <= 1 -> length (handles_in (pre ++ rest)) <= 1 ->
    (forall n ss, In (DSub n ss) rest -> length (types_in ss) <= 1) ->
    l_lib l = the (libs_in pre) -> l_dev l = the (handles_in pre) -> l_type l = "" ->
    (l_lib l <> "" -> In (l_lib l) (known w)) ->
    (forall s, In s (libs_in rest) -> opens L s = true) ->
    (forall n ss, In (DSub n ss) rest -> (n <= 2147483647)%Z /\ (forall k, ~ In (SOther k) ss) /\
       forall m c, In (SChan m c) ss -> possible L (the (libs_in (pre ++ rest))) (the (types_in ss)) m c) ->
    (forall a n ss b, rest = a ++ DSub n ss :: b -> the (libs_in (pre ++ a)) <> "" /\ the (handles_in (pre ++ a)) <> "" /\
       forall a' m c b', ss = a' ++ SChan m c :: b' -> c_type c = "" -> the (types_in a') <> "") ->
    fresh w (of_device (the (libs_in (pre ++ rest))) (the (handles_in (pre ++ rest))) rest) ->
    exists l', snd (do_device w l rest) = Ok l' /\ clean l' /\ l_type l' = "".
  Proof.
    induction rest as [|e rest IH]; intros pre w l C U1 U2 U3 T1 T2 T3 K O P R F; cbn [JsonModel.do_device].
    - exists l. auto.
    - assert (U3' : forall n ss, In (DSub n ss) rest -> length (types_in ss) <= 1) by (intros n ss Hn; apply (U3 n); right; exact Hn).
      assert (P' : forall n ss, In (DSub n ss) rest -> (n <= 2147483647)%Z /\ (forall k, ~ In (SOther k) ss) /\
         forall m c, In (SChan m c) ss -> possible L (the (libs_in (pre ++ e :: rest))) (the (types_in ss)) m c) by (intros n ss Hn; apply P; right; exact Hn).
      assert (R' : forall a n ss b, rest = a ++ DSub n ss :: b -> the (libs_in ((pre ++ [e]) ++ a)) <> "" /\ the (handles_in ((pre ++ [e]) ++ a)) <> "" /\
         forall a' m c b', ss = a' ++ SChan m c :: b' -> c_type c = "" -> the (types_in a') <> "").
      { intros a n ss b E. rewrite <- app_assoc. apply (R (e :: a) n ss b). rewrite E. reflexivity. }
      assert (O' : forall s, In s (libs_in rest) -> opens L s = true) by (intros s Hs; apply O; unfold libs_in; cbn; apply in_or_app; right; exact Hs).
      destruct e as [s|h|n ss|k].
      + assert (S1 : the (libs_in (pre ++ [DLib s])) = s).
        { unfold libs_in. rewrite flat_map_snoc. apply the_snoc. unfold libs_in in U1. rewrite flat_map_app in U1. rewrite app_length in *. cbn in U1 |- *. lia. }
        assert (S2 : handles_in (pre ++ [DLib s]) = handles_in pre) by (unfold handles_in; rewrite flat_map_snoc; cbn; now rewrite app_nil_r).
        match goal with |- context [do_device w ?x rest] => set (l1 := x) end.
        assert (IH' : forall w', made w' = made w -> In s (known w') -> exists l', snd (do_device w' l1 rest) = Ok l' /\ clean l' /\ l_type l' = "").
        { intros w' Ew Kw. apply (IH (pre ++ [DLib s]) w' l1); rewrite <- ?app_assoc; cbn [app]; auto.
          - rewrite S2. exact T2.
          - unfold fresh. rewrite Ew. exact F. }
        destruct (existsb (String.eqb s) (known w)) eqn:Ex.
        * apply IH'; [reflexivity|]. apply existsb_exists in Ex as (x & Ix & Ex). apply String.eqb_eq in Ex. subst. exact Ix.
        * rewrite (O s) by (unfold libs_in; cbn; left; reflexivity). apply IH'; [reflexivity|]. cbn. apply in_or_app. right. left. reflexivity.
      + assert (S1 : the (handles_in (pre ++ [DHandle h])) = h).
        { unfold handles_in. rewrite flat_map_snoc. apply the_snoc. unfold handles_in in U2. rewrite flat_map_app in U2. rewrite app_length in *. cbn in U2 |- *. lia. }
        assert (S2 : libs_in (pre ++ [DHandle h]) = libs_in pre) by (unfold libs_in; rewrite flat_map_snoc; cbn; now rewrite app_nil_r).
        match goal with |- context [do_device w ?x rest] => set (l1 := x) end.
        apply (IH (pre ++ [DHandle h]) w l1); rewrite <- ?app_assoc; cbn [app]; auto. rewrite S2. exact T1.
      + destruct (P n ss (or_introl eq_refl)) as (P1 & P2 & P3). assert (St : stoi_ok n = true) by (unfold stoi_ok; lia). rewrite St. cbn [negb].
        set (lib := the (libs_in (pre ++ DSub n ss :: rest))) in *. set (dev := the (handles_in (pre ++ DSub n ss :: rest))) in *.
        destruct (R [] n ss rest eq_refl) as (R1 & R2 & R3). rewrite !app_nil_r in R1, R2.
        assert (El : l_lib l = lib). { rewrite T1. unfold lib, libs_in. rewrite flat_map_app. symmetry. apply the_app. exact R1. }
        assert (Ed : l_dev l = dev). { rewrite T2. unfold dev, handles_in. rewrite flat_map_app. symmetry. apply the_app. exact R2. }
        assert (U : length (types_in ([] ++ ss)) <= 1) by (apply (U3 n); left; reflexivity).
        assert (F' : fresh w (of_sub lib dev (the (types_in ss)) n ss ++ of_device lib dev rest)) by exact F.
        assert (Hf : fresh w (of_sub lib dev (the (types_in ss)) n ss)).
        { unfold fresh in *. unfold ids in *. rewrite map_app, app_assoc in F'. clear - F'. induction (map (fun o => (o_in o, o_id o)) (made w) ++ map (fun o => (o_in o, o_id o)) (of_sub lib dev (the (types_in ss)) n ss)) as [|a m IHm]; [constructor|].
          cbn in F'. inversion F' as [|? ? N1 N2]; subst. constructor; [|auto]. intros I. apply N1. apply in_or_app. left. exact I. }
        destruct (sub_ok n ss [] w l C U T3) as (l1 & E1 & C1 & B1 & B2 & K1 & _).
        { intros _. split; [congruence|]. split; [congruence|]. apply K. congruence. }
        { exact P2. }
        { rewrite El. exact P3. }
        { intros a m c b E Et. exact (R3 a m c b E Et). }
        { rewrite El, Ed. exact Hf. }
        pose proof (sub_ends one zero L n ss [] w l C U T3) as (dn & rs & Ee & G & _ & Q). rewrite El, Ed in Ee. cbn [app] in Ee.
        destruct (do_sub w l n ss) as [w1 r1]. cbn [fst snd] in *. subst r1. destruct Q as [-> _]. rewrite app_nil_r in Ee. subst dn.
        apply (IH (pre ++ [DSub n ss]) w1 (clear_type l1)); rewrite <- ?app_assoc; cbn [app]; auto.
        * cbn. unfold libs_in. rewrite flat_map_snoc, app_nil_r. fold (libs_in pre). congruence.
        * cbn. unfold handles_in. rewrite flat_map_snoc, app_nil_r. fold (handles_in pre). congruence.
        * cbn. rewrite B1, K1. exact K.
        * exact (fresh_grown _ _ _ _ G F').
      + apply (IH (pre ++ [DOther k]) w l); rewrite <- ?app_assoc; cbn [app]; auto.
        * unfold libs_in. rewrite flat_map_snoc, app_nil_r. exact T1.
        * unfold handles_in. rewrite flat_map_snoc, app_nil_r. exact T2.
  Qed.

  Lemma devices_ok : forall ds w l, unique ds -> clean l -> l_lib l = "" -> l_dev l = "" -> l_type l = "" ->
    (forall d, In d ds -> in_order d) -> (forall d, In d ds -> usable L d) -> fresh w (meant ds) -> exists l', snd (do_devices w l ds) = Ok l'.
  Proof.
    induction ds as [|d ds IH]; intros w l U C T1 T2 T3 Or Us F; cbn [JsonModel.do_devices].
    - exists l. reflexivity.
    - destruct (U d (or_introl eq_refl)) as (U1 & U2 & U3). destruct (Us d (or_introl eq_refl)) as (O & P).
      unfold JsonSpec.meant in F. cbn [flat_map] in F. fold (meant ds) in F.
      assert (Hf : fresh w (of_device (the (libs_in d)) (the (handles_in d)) d)).
      { unfold fresh in *. unfold ids in *. rewrite map_app, app_assoc in F. clear - F. induction (map (fun o => (o_in o, o_id o)) (made w) ++ map (fun o => (o_in o, o_id o)) (of_device (the (libs_in d)) (the (handles_in d)) d)) as [|a m IHm]; [constructor|].
        cbn in F. inversion F as [|? ? N1 N2]; subst. constructor; [|auto]. intros I. apply N1. apply in_or_app. left. exact I. }
      destruct (device_ok d [] w l C U1 U2 U3 T1 T2 T3) as (l1 & E1 & C1 & Ty); auto.
      { intros H. contradiction. }
      { exact (Or d (or_introl eq_refl)). }
      pose proof (device_ends one zero L d [] w l C U1 U2 U3 T1 T2 T3) as (dn & rs & Ee & G & _ & Q). cbn [app] in Ee.
      destruct (do_device w l d) as [w1 r1]. cbn [fst snd] in *. subst r1. destruct Q as [-> _]. rewrite app_nil_r in Ee. subst dn.
      apply IH.
      + intros x Hx. apply U. now right.
      + exact C1.
      + reflexivity.
      + reflexivity.
      + exact Ty.
      + intros x Hx. apply Or. now right.
      + intros x Hx. apply Us. now right.
      + exact (fresh_grown _ _ _ _ G F).
  Qed.

  (** C198 *)
  Theorem load_ok h c : unique c -> (forall d, In d c -> in_order d) -> (forall d, In d c -> usable L d) ->
    NoDup (ids (h_made h) ++ ids (meant c)) -> snd (load h c) = Ok true.
  Proof.
    intros U Or Us F. unfold JsonModel.load.
    destruct (devices_ok c {| made := h_made h; opened := h_opened h; known := h_known h |} (locals0 one zero) U) as (l' & E); auto; [split; reflexivity|].
    destruct (do_devices _ _ c) as [w r]. cbn [fst snd] in *. subst r. reflexivity.
  Qed.

  (** C201 *)
  Definition opn_in (w0 w : world) : Prop := exists new, opened w = opened w0 ++ new /\ NoDup new /\ incl (known w0) (known w) /\
    (forall s, In s new -> ~ In s (known w0) /\ In s (known w)).
  Definition opn_end (w0 w : world) : Prop := exists new, opened w = opened w0 ++ new /\ NoDup new /\ (forall s, In s new -> ~ In s (known w0)).
  Lemma opn_in_end w0 w : opn_in w0 w -> opn_end w0 w.
  Proof. intros (n & A & B & _ & D). exists n. split; [exact A|]. split; [exact B|]. intros s Hs. apply D. exact Hs. Qed.
  Lemma opn_refl w : opn_in w w.
  Proof. exists []. rewrite app_nil_r. split; [reflexivity|]. split; [constructor|]. split; [apply incl_refl|]. intros s []. Qed.
  Definition opn_r (w0 : world) (r : world * outcome locals) : Prop :=
    match snd r with Ok _ => opn_in w0 (fst r) | _ => opn_end w0 (fst r) end.

  Lemma channel_same w l sub n c : known (fst (do_channel w l sub n c)) = known w /\ opened (fst (do_channel w l sub n c)) = opened w.
  Proof.
    unfold JsonModel.do_channel. destruct (negb (stoi_ok n)); [auto|]. destruct (String.eqb (l_lib l) ""); [auto|].
    destruct (negb _); [auto|]. destruct (String.eqb (l_dev l) ""); [auto|]. destruct (parse l c) as [l1|]; [|auto]. cbn zeta.
    set (l2 := if String.eqb (l_ctype l1) "" then _ else _). clearbody l2.
    assert (H : forall o need, known (fst (create w o need)) = known w /\ opened (fst (create w o need)) = opened w).
    { intros o need. destruct (create_cases L w o need) as [(_ & ->)|[(_ & -> & _)|(_ & -> & _)]]; auto. }
    destruct (String.eqb (l_ctype l2) "Fqd" && comedi (l_lib l2)).
    - destruct (c_enc c) as [[ea eb] ez]. destruct (_ || _); [auto|]. match goal with |- context [create w ?o true] => specialize (H o true); destruct (create w o true) as [w1 r1] end. exact H.
    - destruct (lookup typeOfChannel (l_ctype l2)) as [[|]|]; [| |auto]; match goal with |- context [create w ?o false] => specialize (H o false); destruct (create w o false) as [w1 r1] end; exact H.
  Qed.
  Lemma sub_same sub : forall es w l, known (fst (do_sub w l sub es)) = known w /\ opened (fst (do_sub w l sub es)) = opened w.
  Proof.
    induction es as [|e es IH]; intros w l; cbn [JsonModel.do_sub]; [auto|]. destruct e as [t|n c|k]; [apply IH| |auto].
    pose proof (channel_same w l sub n c) as [A B]. destruct (do_channel w l sub n c) as [w1 r1]. cbn [fst] in A, B. destruct r1 as [l1| |]; [|auto|auto].
    destruct (IH w1 l1) as [C D]. split; congruence.
  Qed.
  Lemma opn_cong w0 w w' : known w' = known w -> opened w' = opened w -> opn_in w0 w -> opn_in w0 w'.
  Proof. intros K O (n & A & B & C & D). exists n. rewrite O, K. auto. Qed.
  Lemma device_opens w0 : forall es w l, opn_in w0 w -> opn_r w0 (do_device w l es).
  Proof.
    induction es as [|e es IH]; intros w l H; cbn [JsonModel.do_device]; [exact H|]. destruct e as [s|h|n ss|k].
    - destruct (existsb (String.eqb s) (known w)) eqn:Ex; [apply IH; exact H|].
      assert (Ns : ~ In s (known w)).
      { intros I. assert (X : existsb (String.eqb s) (known w) = true) by (apply existsb_exists; exists s; rewrite String.eqb_refl; auto). congruence. }
      destruct H as (new & A & B & C & D).
      assert (Nn : ~ In s new) by (intros I; apply Ns; apply D; exact I).
      destruct (opens L s).
      + apply IH. exists (new ++ [s]). cbn. split; [rewrite A, app_assoc; reflexivity|]. split; [apply nodup_snoc; auto|]. split.
        * intros x Hx. apply in_or_app. left. apply C. exact Hx.
        * intros x Hx. apply in_app_or in Hx as [Hx|[<-|[]]].
          -- destruct (D x Hx). split; [auto|]. apply in_or_app. left. auto.
          -- split; [intros I; apply Ns, C, I|]. apply in_or_app. right. left. reflexivity.
      + exists (new ++ [s]). cbn. split; [rewrite A, app_assoc; reflexivity|]. split; [apply nodup_snoc; auto|].
        intros x Hx. apply in_app_or in Hx as [Hx|[<-|[]]]; [apply D; exact Hx|]. intros I. apply Ns, C, I.
    - apply IH. exact H.
    - destruct (negb (stoi_ok n)); [exact (opn_in_end _ _ H)|]. pose proof (sub_same n ss w l) as [A B]. destruct (do_sub w l n ss) as [w1 r1]. cbn [fst] in A, B.
      pose proof (opn_cong w0 w w1 A B H) as H1. destruct r1 as [l1| |]; [apply IH; exact H1| |]; exact (opn_in_end _ _ H1).
    - apply IH. exact H.
  Qed.
  Lemma devices_opens w0 : forall ds w l, opn_in w0 w -> opn_r w0 (do_devices w l ds).
  Proof.
    induction ds as [|d ds IH]; intros w l H; cbn [JsonModel.do_devices]; [exact H|]. pose proof (device_opens w0 d w l H) as D.
    destruct (do_device w l d) as [w1 r1]. destruct r1 as [l1| |]; [apply IH; exact D|exact D|exact D].
  Qed.
  Theorem load_opens h c : exists new, h_opened (fst (load h c)) = h_opened h ++ new /\ NoDup new.
  Proof.
    unfold JsonModel.load. set (w0 := {| made := h_made h; opened := h_opened h; known := h_known h |}).
    pose proof (devices_opens w0 c w0 (locals0 one zero) (opn_refl w0)) as H. destruct (do_devices w0 _ c) as [w r]. cbn [fst].
    assert (E : opn_end w0 w) by (destruct r; [apply opn_in_end; exact H|exact H|exact H]). destruct E as (n & A & B & _). exists n. auto.
  Qed.

  (** C202 *)
  Lemma sub_known sub : forall es w l l', snd (do_sub w l sub es) = Ok l' -> forall k, ~ In (SOther k) es.
  Proof.
    induction es as [|e es IH]; intros w l l' H k; cbn [JsonModel.do_sub] in H; [auto|]. destruct e as [t|n c|k'].
    - intros [X|X]; [discriminate|]. eapply IH; eauto.
    - destruct (do_channel w l sub n c) as [w1 [l1| |]]; try discriminate. intros [X|X]; [discriminate|]. eapply IH; eauto.
    - discriminate.
  Qed.
  Lemma device_known : forall es w l l', snd (do_device w l es) = Ok l' -> forall n ss k, In (DSub n ss) es -> ~ In (SOther k) ss.
  Proof.
    induction es as [|e es IH]; intros w l l' H n ss k I; cbn [JsonModel.do_device] in H; [destruct I|]. destruct e as [s|h|n' ss'|k'].
    - destruct I as [I|I]; [discriminate|]. destruct (existsb _ (known w)); [eapply IH; eauto|]. destruct (opens L s); [eapply IH; eauto|discriminate].
    - destruct I as [I|I]; [discriminate|]. eapply IH; eauto.
    - destruct (negb (stoi_ok n')); [discriminate|]. destruct (do_sub w l n' ss') as [w1 [l1| |]] eqn:E; try discriminate.
      destruct I as [I|I]; [|eapply IH; eauto]. injection I as -> ->. eapply (sub_known n ss w l l1). rewrite E. reflexivity.
    - destruct I as [I|I]; [discriminate|]. eapply IH; eauto.
  Qed.
  Theorem load_known h c : snd (load h c) = Ok true -> forall d n ss k, In d c -> In (DSub n ss) d -> ~ In (SOther k) ss.
  Proof.
    unfold JsonModel.load. intros H.
    assert (G : forall ds w l l', snd (do_devices w l ds) = Ok l' -> forall d n ss k, In d ds -> In (DSub n ss) d -> ~ In (SOther k) ss).
    { induction ds as [|d ds IH]; intros w l l' E d' n ss k I J; [destruct I|]. cbn [JsonModel.do_devices] in E.
      destruct (do_device w l d) as [w1 [l1| |]] eqn:Ed; try discriminate. destruct I as [->|I]; [|eapply IH; eauto].
      eapply (device_known d' w l l1); [rewrite Ed; reflexivity|exact J]. }
    destruct (do_devices _ _ c) as [w [l'| |]] eqn:E; try discriminate. refine (G c _ _ l' _). exact (f_equal snd E).
  Qed.
End Success.

(** C205 *)
Theorem args_loaded {V : Type} (one zero : V) (L : libs) h argv path file h' : (forall a b, In a argv -> In b a -> (0 <= b <= 255)%Z) ->
  load_args one zero L true h argv path file = (h', Ok true) ->
  exists p c, path = Some p /\ file p = Some c /\ load one zero L h c = (h', Ok true).
Proof.
  intros B. unfold load_args. destruct (length argv <? 3); [discriminate|].
  assert (E : existsb (en_dash true) argv = false).
  { apply not_true_iff_false. rewrite existsb_exists. intros (a & I & E). unfold en_dash in E. destruct a as [|b0 [|b1 [|b2 a]]]; try discriminate.
    assert (H := B _ b0 I (or_introl eq_refl)). unfold char_value in E. destruct (Z.ltb_spec 127 b0); cbn [andb] in E; apply andb_prop in E as [E _]; apply andb_prop in E as [E _]; apply Z.eqb_eq in E; lia. }
  rewrite E. destruct path as [p|]; [|discriminate]. destruct (String.eqb p ""); [discriminate|]. destruct (file p) as [c|] eqn:Ef; [|discriminate].
  intros H. exists p, c. auto.
Qed.

Section Ids.
  Context {V : Type} (one zero : V) (L : libs).

  (** C200 *)
  Lemma nodup_prefix {A} (a b : list A) : NoDup (a ++ b) -> NoDup a.
  Proof.
    induction a as [|x a IH]; intros H; [constructor|]. cbn in H. inversion H as [|? ? N1 N2]; subst. constructor; [|auto].
    intros I. apply N1. apply in_or_app. left. exact I.
  Qed.
  Lemma nodup_cross {A} (a b : list A) x : NoDup (a ++ b) -> In x a -> In x b -> False.
  Proof.
    induction a as [|y a IH]; intros H Ia Ib; [destruct Ia|]. cbn in H. inversion H as [|? ? N1 N2]; subst.
    destruct Ia as [->|Ia]; [apply N1; apply in_or_app; right; exact Ib|auto].
  Qed.
  Theorem load_ids_iff h c : unique c -> (forall d, In d c -> in_order d) -> (forall d, In d c -> usable L d) -> NoDup (ids (h_made h)) ->
    (snd (load one zero L h c) = Ok true <-> NoDup (ids (h_made h) ++ ids (meant one zero c))).
  Proof.
    intros U O S N. split; [|apply load_ok; assumption]. intros E.
    destruct (load_meaning one zero L h c U) as (dn & rs & Em & G & R & _). specialize (R E). subst rs. rewrite app_nil_r in Em. subst dn.
    pose proof (load_ids one zero L h c U N) as H. rewrite G in H. unfold ids in *. rewrite map_app in H. exact H.
  Qed.
  Theorem load_shared h c i : unique c -> NoDup (ids (h_made h)) -> In i (ids (h_made h)) -> In i (ids (meant one zero c)) ->
    snd (load one zero L h c) <> Ok true.
  Proof.
    intros U N I1 I2 E. destruct (load_meaning one zero L h c U) as (dn & rs & Em & G & R & _). specialize (R E). subst rs. rewrite app_nil_r in Em. subst dn.
    pose proof (load_ids one zero L h c U N) as H. rewrite G in H. unfold ids in *. rewrite map_app in H. exact (nodup_cross _ _ i H I1 I2).
  Qed.
  Theorem load_twice h c : unique c -> NoDup (ids (h_made h)) -> meant one zero c <> [] -> snd (load one zero L h c) = Ok true ->
    snd (load one zero L (fst (load one zero L h c)) c) <> Ok true.
  Proof.
    intros U N M E. destruct (load_meaning one zero L h c U) as (dn & rs & Em & G & R & _). specialize (R E). subst rs. rewrite app_nil_r in Em.
    pose proof (load_ids one zero L h c U N) as H. destruct (meant one zero c) as [|o os] eqn:X; [contradiction|].
    apply (load_shared _ c (o_in o, o_id o) U H).
    - rewrite G. subst dn. unfold ids. rewrite map_app. apply in_or_app. right. left. reflexivity.
    - rewrite X. left. reflexivity.
  Qed.

  (** C203 *)
  Theorem load_defined h c : unique c -> (forall lib, three L lib = comedi lib) -> snd (load one zero L h c) <> UB.
  Proof.
    intros U T E. destruct (load_meaning one zero L h c U) as (dn & rs & _ & _ & _ & R). destruct (R E) as (lib & X). apply X, T.
  Qed.
End Ids.
