(** Proofs about the command loop of SequencerUI and about SharedMemory. *)
From Coq Require Import Ascii.
From Verif Require Import Prelude UiModel UiSpec.
Open Scope nat_scope.

Definition acted (ch : option ascii) (calls : list call) : outcome (list ascii * bool) :=
  match ending calls with
  | None => Ok (arrived calls, false)
  | Some true => Ok (arrived calls, true)
  | Some false => match rev (arrived calls), ch with
    | x :: _, _ => Ok (arrived calls ++ [x], true)
    | [], Some x => Ok ([x], true)
    | [], None => UB
    end
  end.

Lemma read_cmd_spec : forall calls ch,
  match read_cmd ch calls with
  | None => arrived calls = [] /\ ending calls = None
  | Some (ch', connected, rest) => (length rest < length calls) /\
      ((exists x, ch' = Some x /\ connected = true /\ arrived calls = x :: arrived rest /\ ending calls = ending rest) \/
       (exists x, ch' = Some x /\ connected = false /\ arrived calls = [x] /\ ending calls = Some true) \/
       (ch' = ch /\ connected = false /\ arrived calls = [] /\ ending calls = Some false))
  end.
Proof.
  induction calls as [|[lt r] calls IH]; intros ch; cbn [read_cmd]; [split; reflexivity|].
  destruct r as [x| |]; cbn [res late arrived ending].
  - split; [cbn; lia|]. destruct lt; cbn.
    + right. left. exists x. auto.
    + left. exists x. auto.
  - destruct lt.
    + split; [cbn; lia|]. right. right. auto.
    + specialize (IH ch). destruct (read_cmd ch calls) as [[[ch' cn] rest]|]; [|exact IH].
      destruct IH as [Hl H]. split; [cbn; lia|exact H].
  - split; [cbn; lia|]. right. right. auto.
Qed.
Lemma rev_cons_last : forall (A : Type) (l : list A) x, exists y k, rev (x :: l) = y :: k.
Proof. intros A l x. cbn. destruct (rev l) as [|y k]; cbn; eauto. Qed.
Lemma ui_loop_spec : forall fuel ch calls, length calls < fuel -> ui_loop fuel ch calls = acted ch calls.
Proof.
  induction fuel as [|fuel IH]; intros ch calls Hf; [lia|]. cbn [ui_loop].
  pose proof (read_cmd_spec calls ch) as R.
  destruct (read_cmd ch calls) as [[[ch' cn] rest]|].
  - destruct R as [Hl [(x & -> & -> & Ea & Ee)|[(x & -> & -> & Ea & Ee)|(-> & -> & Ea & Ee)]]].
    + rewrite IH by lia. unfold acted. rewrite Ea, Ee.
      destruct (ending rest) as [[|]|]; cbn [omap bind fst snd]; [reflexivity| |reflexivity].
      cbn [rev]. destruct (rev (arrived rest)) as [|y k] eqn:Er.
      * assert (E0 : arrived rest = []) by (rewrite <- (rev_involutive (arrived rest)), Er; reflexivity). rewrite E0. reflexivity.
      * cbn. reflexivity.
    + unfold acted. rewrite Ea, Ee. reflexivity.
    + unfold acted. rewrite Ea, Ee. cbn. destruct ch; reflexivity.
  - destruct R as [Ea Ee]. unfold acted. rewrite Ea, Ee. reflexivity.
Qed.
Lemma ui_client_spec : forall calls, ui_client calls = acted None calls.
Proof. intros. apply ui_loop_spec. lia. Qed.

(** Statements used in the property file. *)
Lemma ui_connected : forall calls, ending calls = None -> ui_client calls = Ok (arrived calls, false).
Proof. intros calls H. rewrite ui_client_spec. unfold acted. now rewrite H. Qed.
Lemma ui_repeats : forall calls x pre, ending calls = Some false -> arrived calls = pre ++ [x] -> ui_client calls = Ok (arrived calls ++ [x], true).
Proof. intros calls x pre H E. rewrite ui_client_spec. unfold acted. rewrite H, E, rev_app_distr. reflexivity. Qed.
Lemma ui_uninit : forall calls, ending calls = Some false -> arrived calls = [] -> ui_client calls = UB.
Proof. intros calls H E. rewrite ui_client_spec. unfold acted. rewrite H, E. reflexivity. Qed.

(** ** SharedMemory *)
Lemma shm_maps_once : forall ok, sh_maps (shm_destroy (shm_construct ok)) = [].
Proof. intros [|]; reflexivity. Qed.
Lemma shm_fd_leak : sh_fds (shm_destroy (shm_construct true)) <> [].
Proof. discriminate. Qed.
Lemma shm_map_leak : sh_maps (shm_destroy (shm_initialize true (shm_construct true))) <> [].
Proof. cbn. discriminate. Qed.
Lemma fds_grow : forall (n : nat) s, (forall a, In a (sh_fds s) -> a < sh_next s) ->
  length (sh_fds (Nat.iter n (shm_initialize true) s)) = n + length (sh_fds s).
Proof. induction n as [|n IH]; intros s H; cbn; [reflexivity|]. f_equal. apply IH. assumption. Qed.

Lemma decode_commands : forall c, decode c = commands_of c.
Proof. intros [[] [] [] [] [] [] [] []]; reflexivity. Qed.
