(** Proofs about the creation of HAL objects. *)
From Coq Require Import String.
From Verif Require Import Prelude JsonModel JsonSpec.
Import List ListNotations.
Open Scope string_scope.
Open Scope list_scope.
Open Scope nat_scope.

Ltac seq x y := destruct (String.eqb_spec x y).
Lemma type_table t : lookup typeOfChannel t = if is_type t then Some (is_real t) else None.
Proof.
  unfold is_type, is_real, one_of, typeOfChannel. cbn [lookup existsb].
  repeat match goal with |- context [String.eqb ?a t] => rewrite (String.eqb_sym a t) end.
  seq t "DigIn"; [subst; reflexivity|]. seq t "DigOut"; [subst; reflexivity|]. seq t "AnalogOut"; [subst; reflexivity|].
  seq t "AnalogIn"; [subst; reflexivity|]. seq t "Pwm"; [subst; reflexivity|]. seq t "Watchdog"; [subst; reflexivity|].
  seq t "Fqd"; [subst; reflexivity|]. reflexivity.
Qed.
Lemma direction_table t : lookup directionOfChannel t = if is_type t then Some (is_input t) else None.
Proof.
  unfold is_type, is_input, one_of, directionOfChannel. cbn [lookup existsb].
  repeat match goal with |- context [String.eqb ?a t] => rewrite (String.eqb_sym a t) end.
  seq t "DigIn"; [subst; reflexivity|]. seq t "DigOut"; [subst; reflexivity|]. seq t "AnalogOut"; [subst; reflexivity|].
  seq t "AnalogIn"; [subst; reflexivity|]. seq t "Pwm"; [subst; reflexivity|]. seq t "Watchdog"; [subst; reflexivity|].
  seq t "Fqd"; [subst; reflexivity|]. reflexivity.
Qed.
Lemma is_type_nonempty t : is_type t = true -> t <> "".
Proof. intros H ->. discriminate. Qed.
Lemma direction_is t : is_type t = true -> direction t = is_input t.
Proof. intros H. unfold direction. rewrite direction_table, H. reflexivity. Qed.
Lemma direction_not t : is_type t = false -> direction t = is_input t.
Proof.
  intros H. unfold direction. rewrite direction_table, H. unfold is_type, one_of in H. cbn [existsb] in H. unfold is_input, one_of. cbn [existsb].
  seq t "DigIn"; [subst; discriminate H|]. seq t "AnalogIn"; [subst; discriminate H|]. seq t "Fqd"; [subst; discriminate H|]. seq t "Watchdog"; [subst; discriminate H|]. reflexivity.
Qed.
Lemma direction_eq t : direction t = is_input t.
Proof. destruct (is_type t) eqn:E; [apply direction_is|apply direction_not]; exact E. Qed.

Section Proofs.
  Context {V : Type} (one zero : V) (L : libs).
  Notation channel := (@channel V). Notation subentry := (@subentry V). Notation deventry := (@deventry V). Notation obj := (@obj V).
  Notation world := (@world V). Notation locals := (@locals V).
  Notation do_channel := (do_channel one zero L). Notation do_sub := (do_sub one zero L). Notation do_device := (do_device one zero L).
  Notation do_devices := (do_devices one zero L). Notation create := (create L). Notation load := (load one zero L).
  Notation object := (object one zero). Notation of_sub := (of_sub one zero). Notation of_device := (of_device one zero). Notation meant := (meant one zero).

  Definition clean (l : locals) : Prop := l_unit l = "" /\ l_safe l = None.
  Definition clash (l : list obj) (o : obj) : bool := existsb (fun p => Bool.eqb (o_in p) (o_in o) && String.eqb (o_id p) (o_id o)) l.

  Lemma clash_spec l o : clash l o = true <-> In (o_in o, o_id o) (ids l).
  Proof.
    unfold clash, ids. rewrite existsb_exists, in_map_iff. split.
    - intros (p & I & E). apply andb_prop in E as [E F]. apply Bool.eqb_prop in E. apply String.eqb_eq in F. exists p. rewrite E, F. auto.
    - intros (p & E & I). injection E as E F. exists p. split; [exact I|]. rewrite E, F, String.eqb_refl. destruct (o_in o); reflexivity.
  Qed.

  (** A creation does nothing, or adds the object. *)
  Lemma create_cases w o need : 
    (snd (create w o need) = Fault /\ fst (create w o need) = w) \/
    (snd (create w o need) = UB /\ fst (create w o need) = w /\ three L (o_lib o) <> need) \/
    (snd (create w o need) = Ok tt /\ fst (create w o need) = {| made := made w ++ [o]; opened := opened w; known := known w |} /\
       o_type o <> "" /\ o_dev o <> "" /\ clash (made w) o = false).
  Proof.
    unfold create. seq (o_type o) ""; [left; auto|]. seq (o_id o) ""; [left; auto|]. seq (o_dev o) ""; [left; auto|]. cbn [orb].
    destruct (negb (has L (o_lib o) (o_type o))); [left; auto|]. destruct (lookup directionOfChannel (o_type o)) as [b|]; [|left; auto].
    destruct (String.eqb (o_type o) "Fqd" && negb (Bool.eqb (three L (o_lib o)) need)) eqn:X.
    - right. left. split; [reflexivity|]. split; [reflexivity|]. apply andb_prop in X as [_ X]. intros E. rewrite E, Bool.eqb_reflx in X. discriminate.
    - unfold add. fold (clash (made w) o). destruct (clash (made w) o) eqn:C; [left; auto|]. right. right. auto.
  Qed.

  Definition grown (w w' : world) (os : list obj) : Prop :=
    made w' = made w ++ os /\ (NoDup (ids (made w)) -> NoDup (ids (made w'))).
  Lemma grown_nil w : grown w w [].
  Proof. split; [now rewrite app_nil_r|auto]. Qed.
  Lemma grown_trans w1 w2 w3 a b : grown w1 w2 a -> grown w2 w3 b -> grown w1 w3 (a ++ b).
  Proof. intros [A1 A2] [B1 B2]. split; [rewrite B1, A1, app_assoc; reflexivity|auto]. Qed.
  Lemma nodup_snoc {A} (l : list A) x : NoDup l -> ~ In x l -> NoDup (l ++ [x]).
  Proof.
    induction l as [|a l IH]; intros N I; cbn; [constructor; auto|]. inversion N as [|? ? N1 N2]; subst. constructor.
    - rewrite in_app_iff. intros [H|[H|[]]]; [auto|]. subst. apply I. now left.
    - apply IH; [exact N2|]. intros H. apply I. now right.
  Qed.
  Lemma grown_one w o : clash (made w) o = false -> grown w {| made := made w ++ [o]; opened := opened w; known := known w |} [o].
  Proof.
    intros C. split; [reflexivity|]. intros N. cbn. unfold ids. rewrite map_app. apply nodup_snoc; [exact N|].
    intros I. apply clash_spec in I. congruence.
  Qed.

  Lemma channel_cases w l sub n c : clean l -> let r := do_channel w l sub n c in
    (fst r = w /\ (snd r = Fault \/ (snd r = UB /\ three L (l_lib l) <> comedi (l_lib l)))) \/
    exists l', snd r = Ok l' /\ clean l' /\ l_lib l' = l_lib l /\ l_dev l' = l_dev l /\ l_type l' = l_type l /\
      grown w (fst r) [object (l_lib l) (l_dev l) (l_type l) sub n c] /\ known (fst r) = known w /\ opened (fst r) = opened w /\
      l_lib l <> "" /\ l_dev l <> "" /\ (c_type c = "" -> l_type l <> "").
  Proof.
    intros [Cu Cs]. cbn zeta. unfold JsonModel.do_channel.
    destruct (negb (stoi_ok n)); [left; auto|]. seq (l_lib l) ""; [left; auto|].
    destruct (negb (existsb (String.eqb (l_lib l)) (known w))); [left; auto|]. seq (l_dev l) ""; [left; auto|].
    unfold parse. destruct (c_cal c) as [k|] eqn:Ek; [|left; auto]. cbn [l_ctype l_lib l_dev l_type l_sig l_unit l_args l_inv l_cal l_safe].
    set (t := type_for (l_type l) c).
    assert (Ht : (if String.eqb (c_type c) "" then l_type l else c_type c) = t) by reflexivity.
    set (l1 := if String.eqb (c_type c) "" then _ else _).
    assert (H1 : l_lib l1 = l_lib l /\ l_dev l1 = l_dev l /\ l_type l1 = l_type l /\ l_ctype l1 = t /\ l_sig l1 = c_sig c /\
                 l_unit l1 = match c_unit c with Some u => u | None => "" end /\ l_args l1 = c_args c /\ l_inv l1 = c_inv c /\ l_cal l1 = k /\ l_safe l1 = c_safe c).
    { unfold l1. rewrite <- Ht. destruct (String.eqb (c_type c) ""); cbn; rewrite Cu, Cs; repeat split; destruct (c_safe c); reflexivity. }
    clearbody l1. destruct H1 as (A1 & A2 & A3 & A4 & A5 & A6 & A7 & A8 & A9 & A10).
    rewrite A1, A2, A4, A5, A6, A7, A8, A9, A10. clear Ht.
    assert (Hcl : clean (clear one zero l1)) by (split; reflexivity).
    assert (Hn : t <> "" -> c_type c = "" -> l_type l <> "").
    { unfold t, type_for. intros Hn E. rewrite E in Hn. exact Hn. }
    destruct (String.eqb t "Fqd" && comedi (l_lib l)) eqn:Enc.
    - apply andb_prop in Enc as [E1 E2]. apply String.eqb_eq in E1. destruct (c_enc c) as [[ea eb] ez] eqn:Ee.
      set (vl := fun x : option Z => match x with Some v => v | None => 0%Z end). fold (vl ea). fold (vl eb). fold (vl ez).
      destruct ((vl ea =? -1)%Z || (vl eb =? -1)%Z); [left; auto|].
      match goal with |- context [create w ?o true] => set (ob := o) end.
      assert (Ho : ob = object (l_lib l) (l_dev l) (l_type l) sub n c).
      { unfold ob, JsonSpec.object. fold t. rewrite E1, E2, Ee, Ek. reflexivity. }
      pose proof (create_cases w ob true) as [(X & Y)|[(X & Y & Z)|(X & Y & Z1 & Z2 & Z3)]]; destruct (create w ob true) as [w1 r1]; cbn [fst snd] in *; subst.
      + left. auto.
      + left. split; [reflexivity|]. right. split; [reflexivity|]. rewrite Ho in Z. cbn in Z. rewrite E2. exact Z.
      + right. exists (clear one zero l1). cbn [omap bind]. split; [reflexivity|]. split; [exact Hcl|]. rewrite <- Ho.
        rewrite Ho in Z1. cbn in Z1. repeat split; auto; try (apply grown_one; exact Z3); apply (grown_one _ _ Z3).
    - rewrite type_table. destruct (is_type t) eqn:It; [|left; auto]. destruct (is_real t) eqn:Ir.
      + match goal with |- context [create w ?o false] => set (ob := o) end.
        assert (Ho : ob = object (l_lib l) (l_dev l) (l_type l) sub n c).
        { unfold ob, JsonSpec.object. fold t. rewrite Enc, Ek, Ir, direction_eq. cbn [andb]. destruct (is_input t); reflexivity. }
        pose proof (create_cases w ob false) as [(X & Y)|[(X & Y & Z)|(X & Y & Z1 & Z2 & Z3)]]; destruct (create w ob false) as [w1 r1] eqn:Ec; cbn [fst snd] in *; subst.
        * left. auto.
        * left. split; [reflexivity|]. right. split; [reflexivity|].
          rewrite Ho in Z. cbn in Z. intros E. rewrite E in Z.
          assert (Eq : String.eqb t "Fqd" = true).
          { unfold create in Ec. destruct (String.eqb (o_type ob) "" || String.eqb (o_id ob) "" || String.eqb (o_dev ob) ""); [discriminate|].
            destruct (negb (has L (o_lib ob) (o_type ob))); [discriminate|]. destruct (lookup directionOfChannel (o_type ob)); [|discriminate].
            rewrite Ho in Ec. cbn [o_type o_lib JsonSpec.object] in Ec. fold t in Ec. destruct (String.eqb t "Fqd"); [reflexivity|]. cbn [andb] in Ec.
            destruct (add w _); discriminate. }
          rewrite Eq in Enc. cbn [andb] in Enc. congruence.
        * right. exists (clear one zero l1). cbn [omap bind]. split; [reflexivity|]. split; [exact Hcl|]. rewrite <- Ho.
          rewrite Ho in Z1. cbn in Z1. repeat split; auto; try (apply grown_one; exact Z3); apply (grown_one _ _ Z3).
      + match goal with |- context [create w ?o false] => set (ob := o) end.
        assert (Ho : ob = object (l_lib l) (l_dev l) (l_type l) sub n c).
        { unfold ob, JsonSpec.object. fold t. rewrite Enc, Ir, direction_eq. reflexivity. }
        pose proof (create_cases w ob false) as [(X & Y)|[(X & Y & Z)|(X & Y & Z1 & Z2 & Z3)]]; destruct (create w ob false) as [w1 r1] eqn:Ec; cbn [fst snd] in *; subst.
        * left. auto.
        * left. split; [reflexivity|]. right. split; [reflexivity|].
          rewrite Ho in Z. cbn in Z. intros E. rewrite E in Z.
          assert (Eq : String.eqb t "Fqd" = true).
          { unfold create in Ec. destruct (String.eqb (o_type ob) "" || String.eqb (o_id ob) "" || String.eqb (o_dev ob) ""); [discriminate|].
            destruct (negb (has L (o_lib ob) (o_type ob))); [discriminate|]. destruct (lookup directionOfChannel (o_type ob)); [|discriminate].
            rewrite Ho in Ec. cbn [o_type o_lib JsonSpec.object] in Ec. fold t in Ec. destruct (String.eqb t "Fqd"); [reflexivity|]. cbn [andb] in Ec.
            destruct (add w _); discriminate. }
          rewrite Eq in Enc. cbn [andb] in Enc. congruence.
        * right. exists (clear one zero l1). cbn [omap bind]. split; [reflexivity|]. split; [exact Hcl|]. rewrite <- Ho.
          rewrite Ho in Z1. cbn in Z1. repeat split; auto; try (apply grown_one; exact Z3); apply (grown_one _ _ Z3).
  Qed.

  Lemma the_app a b : the a <> "" -> the (a ++ b) = the a.
  Proof. destruct a; [intros H; exfalso; apply H; reflexivity|reflexivity]. Qed.
  Lemma the_snoc a x : length (a ++ [x]) <= 1 -> the (a ++ [x]) = x.
  Proof. destruct a as [|y [|z a]]; cbn; [reflexivity| |]; lia. Qed.
  Lemma flat_map_snoc {A B} (f : A -> list B) l x : flat_map f (l ++ [x]) = flat_map f l ++ f x.
  Proof. rewrite flat_map_app. cbn. rewrite app_nil_r. reflexivity. Qed.

  (** How a part of the configuration may end: [os] are its objects. *)
  Definition ends (w : world) (r : world * outcome locals) (os : list obj) (P : locals -> Prop) (Q : Prop) : Prop :=
    exists done rest, os = done ++ rest /\ grown w (fst r) done /\ (done <> [] -> Q) /\
      match snd r with Ok l' => rest = [] /\ P l' | Fault => True | UB => exists lib, three L lib <> comedi lib end.

  Lemma sub_ends sub : forall rest pre w l, clean l -> length (types_in (pre ++ rest)) <= 1 -> l_type l = the (types_in pre) ->
    ends w (do_sub w l sub rest) (of_sub (l_lib l) (l_dev l) (the (types_in (pre ++ rest))) sub rest)
      (fun l' => clean l' /\ l_lib l' = l_lib l /\ l_dev l' = l_dev l) (l_lib l <> "" /\ l_dev l <> "").
  Proof.
    induction rest as [|e rest IH]; intros pre w l C U T; cbn [JsonModel.do_sub].
    - exists [], []. split; [reflexivity|]. split; [apply grown_nil|]. split; [intros H; contradiction|]. cbn. auto.
    - destruct e as [t|n c|k].
      + specialize (IH (pre ++ [SType t]) w {| l_lib := l_lib l; l_dev := l_dev l; l_type := t; l_ctype := l_ctype l; l_sig := l_sig l; l_unit := l_unit l;
          l_args := l_args l; l_inv := l_inv l; l_cal := l_cal l; l_safe := l_safe l |}).
        rewrite <- app_assoc in IH. apply IH; [exact C|exact U|]. cbn [l_type]. unfold types_in. rewrite flat_map_snoc. symmetry. apply the_snoc.
        unfold types_in in U. rewrite flat_map_app in U. rewrite app_length in *. cbn in U |- *. lia.
      + pose proof (channel_cases w l sub n c C) as H. cbn zeta in H. destruct (do_channel w l sub n c) as [w1 r1]. cbn [fst snd] in H.
        destruct H as [[-> H]|(l' & -> & C' & B1 & B2 & B3 & G & _ & _ & Hl & Hd & Ht)].
        * assert (X : ends w (w, r1) (of_sub (l_lib l) (l_dev l) (the (types_in (pre ++ SChan n c :: rest))) sub (SChan n c :: rest))
            (fun l' => clean l' /\ l_lib l' = l_lib l /\ l_dev l' = l_dev l) (l_lib l <> "" /\ l_dev l <> "")).
          { exists [], (of_sub (l_lib l) (l_dev l) (the (types_in (pre ++ SChan n c :: rest))) sub (SChan n c :: rest)).
            split; [reflexivity|]. split; [apply grown_nil|]. split; [intros Z; contradiction|]. cbn [snd]. destruct H as [->|[-> H]]; [exact I|]. exists (l_lib l). exact H. }
          destruct H as [->|[-> H]]; exact X.
        * specialize (IH (pre ++ [SChan n c]) w1 l' C'). rewrite <- app_assoc in IH. cbn [app] in IH.
          assert (Tp : the (types_in (pre ++ [SChan n c])) = the (types_in pre)) by (unfold types_in; rewrite flat_map_snoc; cbn; rewrite app_nil_r; reflexivity).
          rewrite Tp, B1, B2, B3 in IH. destruct (IH U T) as (dn & rs & E & G' & Q & R).
          exists (object (l_lib l) (l_dev l) (l_type l) sub n c :: dn), rs. split; [|split; [|split]].
          -- cbn [JsonSpec.of_sub flat_map app]. unfold JsonSpec.of_sub in E. rewrite E. f_equal.
             unfold JsonSpec.object, type_for. seq (c_type c) ""; [|reflexivity]. specialize (Ht e).
             replace (the (types_in (pre ++ SChan n c :: rest))) with (l_type l); [reflexivity|]. rewrite T. symmetry.
             unfold types_in. rewrite flat_map_app. apply the_app. fold (types_in pre). rewrite <- T. exact Ht.
          -- exact (grown_trans _ _ _ [_] _ G G').
          -- auto.
          -- destruct (snd (do_sub w1 l' sub rest)) as [l''| |]; [|exact R|exact R]. exact R.
      + exists [], (of_sub (l_lib l) (l_dev l) (the (types_in (pre ++ SOther k :: rest))) sub (SOther k :: rest)).
        split; [reflexivity|]. split; [apply grown_nil|]. split; [intros H; contradiction|]. exact I.
  Qed.

  (** The number of objects does not depend on the library. *)
  Lemma of_sub_nil lib dev t lib' dev' t' sub ss : of_sub lib dev t sub ss = [] -> of_sub lib' dev' t' sub ss = [].
  Proof. unfold JsonSpec.of_sub. induction ss as [|[x|n c|k] ss IH]; cbn; auto; discriminate. Qed.

  Lemma grown_same w w' w2 os : made w' = made w -> grown w' w2 os -> grown w w2 os.
  Proof. intros E [A B]. unfold grown. rewrite <- E. auto. Qed.

  Lemma device_ends : forall rest pre w l, clean l -> length (libs_in (pre ++ rest)) <= 1 -> length (handles_in (pre ++ rest)) <= 1 ->
    (forall n ss, In (DSub n ss) rest -> length (types_in ss) <= 1) ->
    l_lib l = the (libs_in pre) -> l_dev l = the (handles_in pre) -> l_type l = "" ->
    ends w (do_device w l rest) (of_device (the (libs_in (pre ++ rest))) (the (handles_in (pre ++ rest))) rest) (fun l' => clean l' /\ l_type l' = "") True.
  Proof.
    induction rest as [|e rest IH]; intros pre w l C U1 U2 U3 T1 T2 T3; cbn [JsonModel.do_device].
    - exists [], []. split; [reflexivity|]. split; [apply grown_nil|]. split; [auto|]. cbn. auto.
    - assert (U3' : forall n ss, In (DSub n ss) rest -> length (types_in ss) <= 1) by (intros n ss Hn; apply (U3 n); right; exact Hn).
      destruct e as [s|h|n ss|k].
      + assert (S1 : the (libs_in (pre ++ [DLib s])) = s).
        { unfold libs_in. rewrite flat_map_snoc. apply the_snoc. unfold libs_in in U1. rewrite flat_map_app in U1. rewrite app_length in *. cbn in U1 |- *. lia. }
        assert (S2 : handles_in (pre ++ [DLib s]) = handles_in pre) by (unfold handles_in; rewrite flat_map_snoc; cbn; now rewrite app_nil_r).
        match goal with |- context [do_device w ?x rest] => set (l1 := x) end.
        assert (IH' : forall w', made w' = made w -> ends w (do_device w' l1 rest)
           (of_device (the (libs_in (pre ++ DLib s :: rest))) (the (handles_in (pre ++ DLib s :: rest))) (DLib s :: rest)) (fun l' => clean l' /\ l_type l' = "") True).
        { intros w' Ew. specialize (IH (pre ++ [DLib s]) w' l1). rewrite <- app_assoc in IH. cbn [app] in IH. rewrite S1, S2 in IH.
          destruct (IH C U1 U2 U3' eq_refl T2 T3) as (dn & rs & A & B & D & E). exists dn, rs. split; [exact A|]. split; [eapply grown_same; eauto|]. auto. }
        destruct (existsb (String.eqb s) (known w)); [apply IH'; reflexivity|]. destruct (opens L s); [apply IH'; reflexivity|].
        exists [], (of_device (the (libs_in (pre ++ DLib s :: rest))) (the (handles_in (pre ++ DLib s :: rest))) (DLib s :: rest)).
        split; [reflexivity|]. split; [split; [now rewrite app_nil_r|auto]|]. split; [auto|exact I].
      + assert (S1 : the (handles_in (pre ++ [DHandle h])) = h).
        { unfold handles_in. rewrite flat_map_snoc. apply the_snoc. unfold handles_in in U2. rewrite flat_map_app in U2. rewrite app_length in *. cbn in U2 |- *. lia. }
        assert (S2 : libs_in (pre ++ [DHandle h]) = libs_in pre) by (unfold libs_in; rewrite flat_map_snoc; cbn; now rewrite app_nil_r).
        match goal with |- context [do_device w ?x rest] => set (l1 := x) end.
        specialize (IH (pre ++ [DHandle h]) w l1). rewrite <- app_assoc in IH. cbn [app] in IH. rewrite S1, S2 in IH.
        exact (IH C U1 U2 U3' T1 eq_refl T3).
      + destruct (negb (stoi_ok n)).
        { exists [], (of_device (the (libs_in (pre ++ DSub n ss :: rest))) (the (handles_in (pre ++ DSub n ss :: rest))) (DSub n ss :: rest)).
          split; [reflexivity|]. split; [apply grown_nil|]. split; [auto|exact I]. }
        set (lib := the (libs_in (pre ++ DSub n ss :: rest))). set (dev := the (handles_in (pre ++ DSub n ss :: rest))).
        assert (U : length (types_in ([] ++ ss)) <= 1) by (apply (U3 n); left; reflexivity).
        destruct (sub_ends n ss [] w l C U T3) as (dn & rs & E & G & Q & R).
        destruct (do_sub w l n ss) as [w1 r1]. cbn [fst snd] in G, R. cbn [app] in E.
        assert (El : dn <> [] -> l_lib l = lib /\ l_dev l = dev).
        { intros H. destruct (Q H) as [Q1 Q2]. unfold lib, dev, libs_in, handles_in. rewrite !flat_map_app. fold (libs_in pre). fold (handles_in pre).
          rewrite !the_app by congruence. auto. }
        assert (Es : exists rs', of_sub lib dev (the (types_in ss)) n ss = dn ++ rs' /\ (rs = [] -> rs' = [])).
        { destruct dn as [|d dn].
          - exists (of_sub lib dev (the (types_in ss)) n ss). split; [reflexivity|]. intros ->. eapply of_sub_nil. exact E.
          - destruct El as [<- <-]; [discriminate|]. exists rs. auto. }
        destruct Es as (rs' & Es & Er).
        assert (D : of_device lib dev (DSub n ss :: rest) = dn ++ (rs' ++ of_device lib dev rest)) by (cbn [JsonSpec.of_device flat_map]; rewrite Es, <- app_assoc; reflexivity).
        destruct r1 as [l1| |].
        * destruct R as (-> & C1 & B1 & B2). specialize (Er eq_refl). subst rs'. cbn [app] in D.
          specialize (IH (pre ++ [DSub n ss]) w1 (clear_type l1)). rewrite <- app_assoc in IH. cbn [app] in IH. fold lib in IH. fold dev in IH.
          destruct IH as (dn2 & rs2 & A2 & G2 & _ & R2).
          { exact C1. }
          { exact U1. }
          { exact U2. }
          { exact U3'. }
          { cbn. unfold libs_in. rewrite flat_map_snoc, app_nil_r. fold (libs_in pre). congruence. }
          { cbn. unfold handles_in. rewrite flat_map_snoc, app_nil_r. fold (handles_in pre). congruence. }
          { reflexivity. }
          exists (dn ++ dn2), rs2. split; [rewrite D, A2, app_assoc; reflexivity|]. split; [exact (grown_trans _ _ _ _ _ G G2)|]. split; [auto|exact R2].
        * exists dn, (rs' ++ of_device lib dev rest). split; [exact D|]. split; [exact G|]. split; [auto|exact I].
        * exists dn, (rs' ++ of_device lib dev rest). split; [exact D|]. split; [exact G|]. split; [auto|exact R].
      + specialize (IH (pre ++ [DOther k]) w l). rewrite <- app_assoc in IH. cbn [app] in IH.
        apply IH; auto.
        * unfold libs_in. rewrite flat_map_snoc, app_nil_r. exact T1.
        * unfold handles_in. rewrite flat_map_snoc, app_nil_r. exact T2.
  Qed.

  Lemma devices_ends : forall ds w l, unique ds -> clean l -> l_lib l = "" -> l_dev l = "" -> l_type l = "" ->
    ends w (do_devices w l ds) (meant ds) (fun _ => True) True.
  Proof.
    induction ds as [|d ds IH]; intros w l U C T1 T2 T3; cbn [JsonModel.do_devices].
    - exists [], []. split; [reflexivity|]. split; [apply grown_nil|]. split; [auto|]. cbn. auto.
    - destruct (U d (or_introl eq_refl)) as (U1 & U2 & U3).
      destruct (device_ends d [] w l C U1 U2 U3 T1 T2 T3) as (dn & rs & E & G & _ & R). cbn [app] in E.
      destruct (do_device w l d) as [w1 r1]. cbn [fst snd] in G, R. unfold JsonSpec.meant. cbn [flat_map]. fold (meant ds). rewrite E.
      destruct r1 as [l1| |].
      + destruct R as (-> & C1 & Ty). rewrite app_nil_r. edestruct IH as (dn2 & rs2 & A2 & G2 & _ & R2); [| | | | |exists (dn ++ dn2), rs2; split; [rewrite A2, app_assoc; reflexivity|]; split; [exact (grown_trans _ _ _ _ _ G G2)|]; split; [auto|exact R2]].
        * intros x Hx. apply U. now right.
        * exact C1.
        * reflexivity.
        * reflexivity.
        * exact Ty.
      + exists dn, (rs ++ meant ds). split; [now rewrite <- app_assoc|]. split; [exact G|]. split; [auto|exact I].
      + exists dn, (rs ++ meant ds). split; [now rewrite <- app_assoc|]. split; [exact G|]. split; [auto|exact R].
  Qed.

  (** C197, C199, C203 *)
  Theorem load_meaning h c : unique c -> exists done rest, meant c = done ++ rest /\ h_made (fst (load h c)) = h_made h ++ done /\
    (snd (load h c) = Ok true -> rest = []) /\ (snd (load h c) = UB -> exists lib, three L lib <> comedi lib).
  Proof.
    intros U. unfold JsonModel.load. destruct (devices_ends c {| made := h_made h; opened := h_opened h; known := h_known h |} (locals0 one zero) U) as (dn & rs & E & [G _] & _ & R);
      [split; reflexivity|reflexivity|reflexivity|reflexivity|].
    destruct (do_devices _ _ c) as [w r]. cbn [fst snd] in *. exists dn, rs. split; [exact E|]. split; [exact G|]. destruct r; cbn; split; try discriminate; intros _; [apply R|exact R].
  Qed.
  Theorem load_ids h c : unique c -> NoDup (ids (h_made h)) -> NoDup (ids (h_made (fst (load h c)))).
  Proof.
    intros U N. unfold JsonModel.load. destruct (devices_ends c {| made := h_made h; opened := h_opened h; known := h_known h |} (locals0 one zero) U) as (dn & rs & E & [_ G] & _ & R);
      [split; reflexivity|reflexivity|reflexivity|reflexivity|].
    destruct (do_devices _ _ c) as [w r]. cbn [fst snd] in *. apply G. exact N.
  Qed.
End Proofs.
