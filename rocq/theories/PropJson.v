(** Properties C197 to C206: creation of the HAL's objects from a configuration. *)
From Coq Require Import String Permutation.
From Verif Require Import Prelude JsonModel JsonSpec JsonProofs JsonProofs2.
Import List ListNotations.
Open Scope string_scope.
Open Scope list_scope.
Open Scope nat_scope.

(** Configurations for the examples and witnesses; the numbers are integers. *)
Definition chan (id t : string) : channel :=
  {| c_sig := id; c_type := t; c_inv := false; c_args := ""; c_unit := None; c_safe := None; c_cal := Some (1, 0, 0, 0)%Z; c_enc := (None, None, None) |}.
Definition all_libs : libs := {| opens := fun _ => true; has := fun _ _ => true; three := comedi |}.
Definition board (sub : list (@subentry Z)) : list (@deventry Z) := [DLib "libboard.so"; DHandle "dev0"; DSub 0 sub].
Definition example : config := [board [SType "DigIn"; SChan 0 (chan "in0" ""); SChan 1 (chan "out0" "DigOut")]].
Lemma example_unique : unique example.
Proof.
  intros d [<-|[]]. split; [repeat constructor|]. split; [repeat constructor|]. intros n ss H.
  destruct H as [H|[H|[H|[]]]]; try discriminate. injection H as <- <-. repeat constructor.
Qed.

(** C197: The HAL gets exactly the objects which the configuration describes, in its order. *)
Theorem C197_objects_as_configured : forall V (one zero : V) L h c, unique c -> snd (load one zero L h c) = Ok true ->
  h_made (fst (load one zero L h c)) = h_made h ++ meant one zero c.
Proof.
  intros V one zero L h c U E. destruct (load_meaning one zero L h c U) as (dn & rs & Em & G & R & _). specialize (R E).
  subst rs. rewrite app_nil_r in Em. rewrite Em. exact G.
Qed.
Print Assumptions C197_objects_as_configured.
Example C197_ex : unique example /\ snd (load 1%Z 0%Z all_libs hal0 example) = Ok true /\ map o_id (meant 1%Z 0%Z example) = ["in0"; "out0"].
Proof. split; [exact example_unique|split; reflexivity]. Qed.

(** C198: Whether a configuration can be loaded does not depend on the order of the keys. *)
Theorem C198_order_irrelevant_refuted : exists (d d' : list (@deventry Z)), Permutation d d' /\ unique [d] /\ usable all_libs d /\
  NoDup (ids (meant 1%Z 0%Z [d])) /\ snd (load 1%Z 0%Z all_libs hal0 [d]) = Ok true /\ snd (load 1%Z 0%Z all_libs hal0 [d']) = Fault.
Proof.
  exists [DLib "libboard.so"; DHandle "dev0"; DSub 0 [SChan 0 (chan "in0" "DigIn")]],
         [DHandle "dev0"; DSub 0 [SChan 0 (chan "in0" "DigIn")]; DLib "libboard.so"].
  split; [apply (Permutation_cons_append [DHandle "dev0"; DSub 0 [SChan 0 (chan "in0" "DigIn")]])|]. split.
  { intros d [<-|[]]. split; [repeat constructor|]. split; [repeat constructor|]. intros n ss [H|[H|[H|[]]]]; try discriminate. injection H as <- <-. repeat constructor. }
  split.
  { split; [reflexivity|]. intros n ss [H|[H|[H|[]]]]; try discriminate. injection H as <- <-. split; [lia|]. split; [intros k [H|[]]; discriminate|].
    intros m c [H|[]]. injection H as <- <-. split; [lia|]. split; [discriminate|]. split; [discriminate|]. split; [reflexivity|]. split; [reflexivity|]. discriminate. }
  split; [constructor; [intros []|constructor]|]. split; reflexivity.
Qed.
Print Assumptions C198_order_irrelevant_refuted.
Theorem C198_order_irrelevant_partial : forall V (one zero : V) L h c, unique c -> (forall d, In d c -> in_order d) -> (forall d, In d c -> usable L d) ->
  NoDup (ids (h_made h)) -> (snd (load one zero L h c) = Ok true <-> NoDup (ids (h_made h) ++ ids (meant one zero c))).
Proof. exact (fun V one zero L => load_ids_iff one zero L). Qed.
Print Assumptions C198_order_irrelevant_partial.
Example C198_ex : (forall d, In d example -> in_order d) /\ (forall d, In d example -> usable all_libs d) /\ NoDup (ids (meant 1%Z 0%Z example)).
Proof.
  split.
  { intros d [<-|[]] a n ss b H. destruct a as [|x a]; [discriminate|]. injection H as <- H. destruct a as [|x a]; [discriminate|]. injection H as <- H.
    destruct a as [|x a].
    - injection H as <- <- <-. split; [discriminate|]. split; [discriminate|]. intros a' m c b' H _. destruct a' as [|x a']; [discriminate|].
      injection H as <- H. discriminate.
    - injection H as <- H. destruct a; discriminate. }
  split.
  { intros d [<-|[]]. split; [reflexivity|]. intros n ss [H|[H|[H|[]]]]; try discriminate. injection H as <- <-. split; [lia|]. split.
    { intros k [H|[H|[H|[]]]]; discriminate. }
    intros m c [H|[H|[H|[]]]]; try discriminate; injection H as <- <-; (split; [lia|]; split; [discriminate|]; split; [discriminate|]; split; [reflexivity|]; split; [reflexivity|]; discriminate). }
  repeat constructor; cbn; intuition congruence.
Qed.

(** C199: A configuration which cannot be loaded leaves the HAL as it was. *)
Theorem C199_failure_leaves_nothing_refuted : exists c c' : @config Z, let r := load 1%Z 0%Z all_libs hal0 c in
  snd r = Fault /\ h_made (fst r) <> [] /\ snd (load 1%Z 0%Z all_libs hal0 c') = Ok true /\ snd (load 1%Z 0%Z all_libs (fst r) c') = Fault.
Proof.
  exists [board [SChan 0 (chan "in0" "DigIn"); SChan 1 (chan "in1" "Digin")]], [board [SChan 0 (chan "in0" "DigIn"); SChan 1 (chan "in1" "DigIn")]].
  cbn zeta. split; [reflexivity|]. split; [|split; reflexivity].
  intros E. apply (f_equal (@length _)) in E. revert E. match goal with |- ?l = _ -> _ => assert (E : l = 1) by reflexivity; rewrite E end. discriminate.
Qed.
Print Assumptions C199_failure_leaves_nothing_refuted.
Theorem C199_failure_leaves_prefix_partial : forall V (one zero : V) L h c, unique c -> exists done rest, meant one zero c = done ++ rest /\
  h_made (fst (load one zero L h c)) = h_made h ++ done /\ (snd (load one zero L h c) = Ok true -> rest = []).
Proof.
  intros V one zero L h c U. destruct (load_meaning one zero L h c U) as (dn & rs & A & B & C & _). exists dn, rs. auto.
Qed.
Print Assumptions C199_failure_leaves_prefix_partial.
Example C199_ex : unique [board [SChan 0 (chan "in0" "DigIn"); SChan 1 (chan "in1" "Digin")]].
Proof.
  intros d [<-|[]]. split; [repeat constructor|]. split; [repeat constructor|]. intros n ss H.
  destruct H as [H|[H|[H|[]]]]; try discriminate. injection H as <- <-. repeat constructor.
Qed.

(** C200: Identifiers stay unique; a configuration with an identifier in use is rejected, in particular when it is read twice. *)
Theorem C200_ids_unique : forall V (one zero : V) L h c, unique c -> NoDup (ids (h_made h)) ->
  NoDup (ids (h_made (fst (load one zero L h c)))) /\
  (forall i, In i (ids (h_made h)) -> In i (ids (meant one zero c)) -> snd (load one zero L h c) <> Ok true) /\
  (snd (load one zero L h c) = Ok true -> meant one zero c <> [] -> snd (load one zero L (fst (load one zero L h c)) c) <> Ok true).
Proof.
  intros V one zero L h c U N. split; [exact (load_ids one zero L h c U N)|]. split.
  - intros i. exact (load_shared one zero L h c i U N).
  - intros E M. exact (load_twice one zero L h c U N M E).
Qed.
Print Assumptions C200_ids_unique.
Example C200_ex : let h := fst (load 1%Z 0%Z all_libs hal0 example) in unique example /\ NoDup (ids (h_made h)) /\
  In (true, "in0") (ids (h_made h)) /\ In (true, "in0") (ids (meant 1%Z 0%Z example)).
Proof.
  intros h. split; [exact example_unique|].
  assert (E : ids (h_made h) = [(true, "in0"); (false, "out0")]) by reflexivity. rewrite E. clear E h.
  split; [|split; left; reflexivity]. constructor; [intros [H|[]]; discriminate|]. constructor; [intros []|constructor].
Qed.

(** C201: Every library is opened once. *)
Theorem C201_library_opened_once_refuted : exists c c' : @config Z, let h := fst (load 1%Z 0%Z all_libs hal0 c) in
  snd (load 1%Z 0%Z all_libs hal0 c) = Ok true /\ snd (load 1%Z 0%Z all_libs h c') = Ok true /\ ~ NoDup (h_opened (fst (load 1%Z 0%Z all_libs h c'))).
Proof.
  exists [board [SChan 0 (chan "in0" "DigIn")]], [board [SChan 1 (chan "in1" "DigIn")]]. cbn zeta. split; [reflexivity|]. split; [reflexivity|].
  match goal with |- ~ NoDup ?l => assert (E : l = ["libboard.so"; "libboard.so"]) by reflexivity; rewrite E; clear E end.
  intros N. inversion N as [|? ? X _]; subst. apply X. left. reflexivity.
Qed.
Print Assumptions C201_library_opened_once_refuted.
Theorem C201_library_opened_once_partial : forall V (one zero : V) L h c, exists new, h_opened (fst (load one zero L h c)) = h_opened h ++ new /\ NoDup new.
Proof. exact (fun V one zero L => load_opens one zero L). Qed.
Print Assumptions C201_library_opened_once_partial.
Example C201_ex : h_opened (fst (load 1%Z 0%Z all_libs hal0 (example ++ [[DLib "libboard.so"; DHandle "dev1"]]))) = ["libboard.so"].
Proof. reflexivity. Qed.

(** C202: A configuration with an unknown key is rejected. *)
Theorem C202_unknown_key_rejected_refuted : exists c : @config Z, In (DOther "Subdevice1") (concat c) /\ snd (load 1%Z 0%Z all_libs hal0 c) = Ok true.
Proof. exists [board [] ++ [DOther "Subdevice1"]]. split; [cbn; tauto|reflexivity]. Qed.
Print Assumptions C202_unknown_key_rejected_refuted.
Theorem C202_unknown_key_rejected_partial : forall V (one zero : V) L h c, snd (load one zero L h c) = Ok true ->
  forall d n ss k, In d c -> In (DSub n ss) d -> ~ In (SOther k) ss.
Proof. exact (fun V one zero L => load_known one zero L). Qed.
Print Assumptions C202_unknown_key_rejected_partial.
Example C202_ex : snd (load 1%Z 0%Z all_libs hal0 [board [SOther "Channel0"]]) = Fault.
Proof. reflexivity. Qed.

(** C203: Encoders are created with the signature their library has, and only with their channels given. *)
Definition versioned : libs := {| opens := fun _ => true; has := fun _ _ => true; three := prefix "libcomedi" |}.
Theorem C203_encoder_defined_refuted : exists c : @config Z, unique c /\ snd (load 1%Z 0%Z versioned hal0 c) = UB.
Proof.
  exists [[DLib "libcomedieeros.so.1"; DHandle "/dev/comedi0"; DSub 0 [SChan 0 (chan "enc" "Fqd")]]]. split; [|reflexivity].
  intros d [<-|[]]. split; [repeat constructor|]. split; [repeat constructor|]. intros n ss H.
  destruct H as [H|[H|[H|[]]]]; try discriminate. injection H as <- <-. repeat constructor.
Qed.
Print Assumptions C203_encoder_defined_refuted.
Theorem C203_encoder_channels_refuted : exists lib c, c_enc c = (None, None, None) /\
  let r := load 1%Z 0%Z all_libs hal0 [[DLib lib; DHandle "/dev/comedi0"; DSub 0 [SChan 0 c]]] in
  snd r = Ok true /\ map o_chan (h_made (fst r)) = [[0; 0; 0]%Z].
Proof. exists "libcomedieeros.so", (chan "enc" "Fqd"). repeat split; reflexivity. Qed.
Print Assumptions C203_encoder_channels_refuted.
Theorem C203_encoder_defined_partial : forall V (one zero : V) L h c, unique c -> (forall lib, three L lib = comedi lib) -> snd (load one zero L h c) <> UB.
Proof. exact (fun V one zero L => load_defined one zero L). Qed.
Print Assumptions C203_encoder_defined_partial.
Example C203_ex : (forall lib, three all_libs lib = comedi lib) /\ comedi "libcomedieeros.so" = true /\ comedi "libbbblue.so" = false.
Proof. repeat split. Qed.

(** C204: Every type of channel has a direction and a kind. *)
Theorem C204_types_complete : forall t,
  lookup typeOfChannel t = (if is_type t then Some (is_real t) else None) /\
  lookup directionOfChannel t = (if is_type t then Some (is_input t) else None).
Proof. intros t. split; [exact (type_table t)|exact (direction_table t)]. Qed.
Print Assumptions C204_types_complete.
Example C204_ex : is_type "Pwm" = true /\ is_type "pwm" = false.
Proof. split; reflexivity. Qed.

(** C205: readConfigFromFile(argc, argv) returns true only when the file was loaded. *)
Theorem C205_true_means_loaded_refuted : exists (argv : list (list Z)) path (file : string -> option (@config Z)),
  (forall a b, In a argv -> In b a -> (0 <= b <= 255)%Z) /\ load_args 1%Z 0%Z all_libs false hal0 argv path file = (hal0, Ok true) /\
  forall p, file p = None.
Proof.
  exists [[112]; [226; 128; 147; 99]; [102]]%Z, None, (fun _ => None). split; [|split; reflexivity].
  intros a b [<-|[<-|[<-|[]]]] I; cbn in I; lia.
Qed.
Print Assumptions C205_true_means_loaded_refuted.
Theorem C205_true_means_loaded_partial : forall V (one zero : V) L h argv path file h', (forall a b, In a argv -> In b a -> (0 <= b <= 255)%Z) ->
  load_args one zero L true h argv path file = (h', Ok true) ->
  exists p c, path = Some p /\ file p = Some c /\ load one zero L h c = (h', Ok true).
Proof. exact (fun V one zero L => args_loaded one zero L). Qed.
Print Assumptions C205_true_means_loaded_partial.
Example C205_ex : snd (load_args 1%Z 0%Z all_libs true hal0 [[112]; [45; 99]; [102]]%Z (Some "f") (fun _ => Some example)) = Ok true.
Proof. reflexivity. Qed.

(** C206: A feature is called only if the library of the object provides it. *)
Theorem C206_feature_of_library_refuted : exists (sym : option string -> string -> bool) handle o f,
  call_feature sym handle (Some o) f = Ok o /\ forall l, sym (Some l) f = false.
Proof. exists (fun l _ => match l with None => true | Some _ => false end), (fun _ => None), 0, "setPwmFrequency". split; reflexivity. Qed.
Print Assumptions C206_feature_of_library_refuted.
Theorem C206_unknown_name_refuted : exists f, forall sym handle, call_feature sym handle None f = UB.
Proof. exists "setPwmFrequency". reflexivity. Qed.
Print Assumptions C206_unknown_name_refuted.
Theorem C206_feature_of_library_partial : forall sym handle o f l, handle o = Some l ->
  call_feature sym handle (Some o) f = if sym (Some l) f then Ok o else Fault.
Proof. intros sym handle o f l H. unfold call_feature. rewrite H. reflexivity. Qed.
Print Assumptions C206_feature_of_library_partial.
Example C206_ex : call_feature (fun l f => match l with Some l => String.eqb l "a" | None => true end) (fun _ => Some "b") (Some 0) "f" = Fault.
Proof. reflexivity. Qed.
