(** Model of the creation of HAL objects from a configuration: /repo/src/hal/JsonParser.cpp 19-191 and 354-443,
    /repo/includes/eeros/hal/HALFeatures.hpp 21-39, /repo/src/hal/HAL.cpp 17-63 and 71-90, /repo/includes/eeros/hal/HAL.hpp 36-56.
    The parsed file (libucl) is given with its keys in the order of iteration.  Of libucl the model assumes: string_value() of
    a missing key is empty, bool_value() false, int_value() 0; keys within an object are unique (UCL_DUPLICATE_ERROR).
    All C++ exceptions are one outcome. *)
From Coq Require Import String Ascii.
From Verif Require Import Prelude.
Import List ListNotations.
Open Scope string_scope.
Open Scope list_scope.
Open Scope nat_scope.

(** HALFeatures.hpp 11-19: [true] for In and for Real. *)
Definition directionOfChannel : list (string * bool) :=
  [("DigIn", true); ("DigOut", false); ("AnalogOut", false); ("AnalogIn", true); ("Pwm", false); ("Watchdog", true); ("Fqd", true)].
Definition typeOfChannel : list (string * bool) :=
  [("DigIn", false); ("DigOut", false); ("AnalogOut", true); ("AnalogIn", true); ("Pwm", true); ("Watchdog", false); ("Fqd", true)].
(** std::map::find *)
Fixpoint lookup {A} (l : list (string * A)) (k : string) : option A :=
  match l with [] => None | (k', v) :: l => if String.eqb k' k then Some v else lookup l k end.

(** Line 102: the regular expression libcomedi[a-z.A-z]+ on the whole name; A-z are the codes 65 to 122. *)
Fixpoint all_chars (p : ascii -> bool) (s : string) : bool :=
  match s with EmptyString => true | String c s => p c && all_chars p s end.
Definition comedi_char (c : ascii) : bool :=
  let n := nat_of_ascii c in (Nat.eqb n 46) || ((65 <=? n) && (n <=? 122)).
Fixpoint strip (p s : string) : option string :=
  match p, s with
  | EmptyString, _ => Some s
  | String a p, String b s => if Ascii.eqb a b then strip p s else None
  | String _ _, EmptyString => None
  end.
Definition comedi (lib : string) : bool :=
  match strip "libcomedi" lib with Some (String c s) => all_chars comedi_char (String c s) | _ => false end.

Section Json.
  Context {V : Type}.            (* the numbers *)
  Context (one zero : V).
  Definition cal : Type := (V * V * V * V).   (* scale, offset, rangeMin, rangeMax *)
  Definition cal0 : cal := (one, zero, zero, zero).

  (** The properties of a channel; [c_cal] is the result of calcScale (ScaleModel.v), None when it throws; [c_enc] are
      encChannelA, encChannelB and encChannelZ. *)
  Record channel := { c_sig : string; c_type : string; c_inv : bool; c_args : string; c_unit : option string; c_safe : option V;
                      c_cal : option cal; c_enc : option Z * option Z * option Z }.
  Inductive subentry := SType (t : string) | SChan (n : Z) (c : channel) | SOther (k : string).
  Inductive deventry := DLib (l : string) | DHandle (h : string) | DSub (n : Z) (l : list subentry) | DOther (k : string).
  Definition config := list (list deventry).

  (** What was created: direction, kind, and the arguments of the factory function.  [o_safe] is meaningful for real outputs. *)
  Record obj := { o_in : bool; o_real : bool; o_id : string; o_type : string; o_lib : string; o_dev : string; o_sub : Z; o_chan : list Z;
                  o_inv : bool; o_cal : cal; o_safe : option V; o_unit : string; o_args : string }.

  (** The libraries: whether dlopen succeeds, whether the function create<type> exists, and whether createFqd takes three
      encoder channels (calling it with the other signature is undefined behaviour). *)
  Record libs := { opens : string -> bool; has : string -> string -> bool; three : string -> bool }.

  (** The HAL's objects, the calls of dlopen made so far, and the libraries known to the running call (a copy of the member,
      JsonParser.cpp 34). *)
  Record world := { made : list obj; opened : list string; known : list string }.
  (** The local variables, lines 35-47. *)
  Record locals := { l_lib : string; l_dev : string; l_type : string; l_ctype : string; l_sig : string; l_unit : string; l_args : string;
                     l_inv : bool; l_cal : cal; l_safe : option V }.
  Definition locals0 : locals :=
    {| l_lib := ""; l_dev := ""; l_type := ""; l_ctype := ""; l_sig := ""; l_unit := ""; l_args := ""; l_inv := false; l_cal := cal0;
       l_safe := None |}.
  (** Result: the effects so far, and how the function goes on (Ok) or ends. *)
  Definition result : Type := world * outcome locals.

  Context (L : libs).

  (** addInput / addOutput, HAL.cpp 71-90: the identifier must be new. *)
  Definition add (w : world) (o : obj) : option world :=
    if existsb (fun p => Bool.eqb (o_in p) (o_in o) && String.eqb (o_id p) (o_id o)) (made w) then None
    else Some {| made := made w ++ [o]; opened := opened w; known := known w |}.

  (** createLogicObject 354-383, createRealObject 385-415, createComediFqd 417-443. *)
  Definition create (w : world) (o : obj) (need3 : bool) : world * outcome unit :=
    if String.eqb (o_type o) "" || String.eqb (o_id o) "" || String.eqb (o_dev o) "" then (w, Fault)
    else if negb (has L (o_lib o) (o_type o)) then (w, Fault)
    else match lookup directionOfChannel (o_type o) with
    | None => (w, Fault)
    | Some _ =>
      if String.eqb (o_type o) "Fqd" && negb (Bool.eqb (three L (o_lib o)) need3) then (w, UB)
      else match add w o with None => (w, Fault) | Some w' => (w', Ok tt) end
    end.
  Definition direction (t : string) : bool := match lookup directionOfChannel t with Some b => b | None => false end.

  (** parseChannelProperties, 174-190 *)
  Definition parse (l : locals) (c : channel) : option locals :=
    match c_cal c with
    | None => None
    | Some k => Some {| l_lib := l_lib l; l_dev := l_dev l; l_type := l_type l; l_ctype := c_type c; l_sig := c_sig c;
        l_unit := match c_unit c with Some u => u | None => l_unit l end; l_args := c_args c; l_inv := c_inv c; l_cal := k;
        l_safe := match c_safe c with Some v => Some v | None => l_safe l end |}
    end.
  (** Lines 131-141 *)
  Definition clear (l : locals) : locals :=
    {| l_lib := l_lib l; l_dev := l_dev l; l_type := l_type l; l_ctype := ""; l_sig := ""; l_unit := ""; l_args := l_args l;
       l_inv := false; l_cal := cal0; l_safe := None |}.
  (** std::stoi on the digits of the key *)
  Definition stoi_ok (n : Z) : bool := (n <=? 2147483647)%Z.

  (** Lines 78-154: one channel; [sub] is the number of the subdevice. *)
  Definition do_channel (w : world) (l : locals) (sub n : Z) (c : channel) : result :=
    if negb (stoi_ok n) then (w, Fault)
    else if String.eqb (l_lib l) "" then (w, Fault)
    else if negb (existsb (String.eqb (l_lib l)) (known w)) then (w, Fault)
    else if String.eqb (l_dev l) "" then (w, Fault)
    else match parse l c with
    | None => (w, Fault)
    | Some l =>
      let l := if String.eqb (l_ctype l) ""
               then {| l_lib := l_lib l; l_dev := l_dev l; l_type := l_type l; l_ctype := l_type l; l_sig := l_sig l; l_unit := l_unit l;
                       l_args := l_args l; l_inv := l_inv l; l_cal := l_cal l; l_safe := l_safe l |} else l in
      let real chans args := {| o_in := direction (l_ctype l); o_real := true; o_id := l_sig l; o_type := l_ctype l; o_lib := l_lib l; o_dev := l_dev l;
                                o_sub := sub; o_chan := chans; o_inv := false; o_cal := l_cal l;
                                o_safe := if direction (l_ctype l) then None else l_safe l; o_unit := l_unit l; o_args := args |} in
      let logic := {| o_in := direction (l_ctype l); o_real := false; o_id := l_sig l; o_type := l_ctype l; o_lib := l_lib l; o_dev := l_dev l;
                      o_sub := sub; o_chan := [n]; o_inv := l_inv l; o_cal := cal0; o_safe := None; o_unit := ""; o_args := l_args l |} in
      if String.eqb (l_ctype l) "Fqd" && comedi (l_lib l) then
        (* lines 104-116, with channelCreated then true; the missing channels are 0, so that the test for -1 fails for explicit values only *)
        let value x := match x with Some v => v | None => 0%Z end in
        let '(a, b, z) := (let '(a, b, z) := c_enc c in (value a, value b, value z)) in
        if ((a =? -1) || (b =? -1))%Z then (w, Fault)
        else let '(w', r) := create w (real [a; b; z] "") true in (w', omap (fun _ => clear l) r)
      else match lookup typeOfChannel (l_ctype l) with
      | None => (w, Fault)
      | Some true => let '(w', r) := create w (real [n] (l_args l)) false in (w', omap (fun _ => clear l) r)
      | Some false => let '(w', r) := create w logic false in (w', omap (fun _ => clear l) r)
      end
    end.

  (** Lines 72-161: the entries of a subdevice *)
  Fixpoint do_sub (w : world) (l : locals) (sub : Z) (es : list subentry) : result :=
    match es with
    | [] => (w, Ok l)
    | SType t :: es =>
      do_sub w {| l_lib := l_lib l; l_dev := l_dev l; l_type := t; l_ctype := l_ctype l; l_sig := l_sig l; l_unit := l_unit l; l_args := l_args l;
                  l_inv := l_inv l; l_cal := l_cal l; l_safe := l_safe l |} sub es
    | SChan n c :: es => match do_channel w l sub n c with (w', Ok l') => do_sub w' l' sub es | r => r end
    | SOther _ :: _ => (w, Fault)
    end.
  Definition clear_type (l : locals) : locals :=
    {| l_lib := l_lib l; l_dev := l_dev l; l_type := ""; l_ctype := l_ctype l; l_sig := l_sig l; l_unit := l_unit l; l_args := l_args l;
       l_inv := l_inv l; l_cal := l_cal l; l_safe := l_safe l |}.

  (** Lines 53-166: the entries of a device; other keys are ignored. *)
  Fixpoint do_device (w : world) (l : locals) (es : list deventry) : result :=
    match es with
    | [] => (w, Ok l)
    | DLib s :: es =>
      let l' := {| l_lib := s; l_dev := l_dev l; l_type := l_type l; l_ctype := l_ctype l; l_sig := l_sig l; l_unit := l_unit l; l_args := l_args l;
                   l_inv := l_inv l; l_cal := l_cal l; l_safe := l_safe l |} in
      if existsb (String.eqb s) (known w) then do_device w l' es
      else if opens L s then do_device {| made := made w; opened := opened w ++ [s]; known := known w ++ [s] |} l' es
      else ({| made := made w; opened := opened w ++ [s]; known := known w |}, Fault)
    | DHandle h :: es =>
      do_device w {| l_lib := l_lib l; l_dev := h; l_type := l_type l; l_ctype := l_ctype l; l_sig := l_sig l; l_unit := l_unit l; l_args := l_args l;
                     l_inv := l_inv l; l_cal := l_cal l; l_safe := l_safe l |} es
    | DSub n ss :: es =>
      if negb (stoi_ok n) then (w, Fault)
      else match do_sub w l n ss with (w', Ok l') => do_device w' (clear_type l') es | r => r end
    | DOther _ :: es => do_device w l es
    end.
  (** Lines 51-171 *)
  Fixpoint do_devices (w : world) (l : locals) (ds : config) : result :=
    match ds with
    | [] => (w, Ok l)
    | d :: ds => match do_device w l d with
      | (w', Ok l') => do_devices w' {| l_lib := ""; l_dev := ""; l_type := l_type l'; l_ctype := l_ctype l'; l_sig := l_sig l'; l_unit := l_unit l';
                                         l_args := l_args l'; l_inv := l_inv l'; l_cal := l_cal l'; l_safe := l_safe l' |} ds
      | r => r
      end
    end.

  (** HAL.cpp 17-21: the map of libraries is passed by value, so that the member stays as it is.  The HAL: its objects, its
      map of libraries, and the calls of dlopen. *)
  Record hal := { h_made : list obj; h_known : list string; h_opened : list string }.
  Definition hal0 : hal := {| h_made := []; h_known := []; h_opened := [] |}.
  Definition load (h : hal) (c : config) : hal * outcome bool :=
    let '(w, r) := do_devices {| made := h_made h; opened := h_opened h; known := h_known h |} locals0 c in
    ({| h_made := made w; h_known := h_known h; h_opened := opened w |}, omap (fun _ => true) r).

  (** HAL.cpp 23-63: the command line.  An argument is its bytes (0 to 255); [signed]: char is a signed type.  argv[i][1] and
      argv[i][2] are read only after a match.  [path]: the result of getopt on the first arguments, None without -c;
      [file] is the content of that file, None when it cannot be parsed.  The result -1 is converted to true. *)
  Definition char_value (signed : bool) (b : Z) : Z := if (signed && (127 <? b))%Z then (b - 256)%Z else b.
  Definition en_dash (signed : bool) (a : list Z) : bool :=
    match a with
    | b0 :: b1 :: b2 :: _ => ((char_value signed b0 =? 226) && (char_value signed b1 =? 128) && (char_value signed b2 =? 147))%Z
    | _ => false
    end.
  Definition load_args (signed : bool) (h : hal) (argv : list (list Z)) (path : option string) (file : string -> option config) : hal * outcome bool :=
    if length argv <? 3 then (h, Fault)
    else if existsb (en_dash signed) argv then (h, Ok true)
    else match path with
    | None => (h, Fault)
    | Some p => if String.eqb p "" then (h, Fault) else match file p with None => (h, Fault) | Some c => load h c end
    end.

  (** callInputFeature, HAL.hpp 47-56, HAL.cpp 244-247 (and the same for outputs): dlsym with a null handle (RTLD_DEFAULT)
      searches the whole program.  [sym None f]: the program has a symbol f; [sym (Some l) f]: library l has it.
      The result is the object the function is called for. *)
  Definition call_feature (sym : option string -> string -> bool) (handle : nat -> option string) (o : option nat) (f : string) : outcome nat :=
    match o with
    | None => UB
    | Some p => if sym (handle p) f then Ok p else Fault
    end.
End Json.
