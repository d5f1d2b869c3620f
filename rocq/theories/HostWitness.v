(** Hosts of different byte orders read the same bytes differently. *)
From Coq Require Import String List ZArith Bool Lia.
From Verif Require Import Base PyVal PyStruct DataTypes ClassFactory DataMaps Expr Codec Demo SpecPrim SpecMap SpecCreate SpecHost MapProofs DemoProofs.
Import ListNotations.
Open Scope Z_scope.
Open Scope string_scope.
Open Scope list_scope.

Definition d_word : dtype := DInteger (fixed_of "word" BONative 2) true.

(** A big-endian structure of a number without a byte order of its own, a
    little-endian number, bytes and a little-endian sequence of such numbers. *)
Definition h_packet : dtype :=
  DStructure (meta_of "packet") BOBig
    [member "kind" d_word; member "flags" d_uint16;
     member "body" (DElems KStream (elems_size "body" d_uint8 2) d_uint8);
     member "words" (DElems KSequence (elems_number "words" d_word 2) d_word)].

Lemma packet_portable : portable False h_packet.
Proof.
  cbn. unfold explicit. cbn. repeat split; auto; try (left; left; right; discriminate); try (left; right; discriminate).
  left. split; auto. right. discriminate.
Qed.

(** The structure of native byte order of two numbers with byte orders of their
    own. *)
Definition h_native : dtype :=
  DStructure (meta_of "native") BONative [member "first" d_uint16; member "second" d_uint16].

Lemma structure_host_refuted :
  exists d m m' b v v' n, everywhere numbers_explicit d /\
    create (on_host Little demo) d None = Ok (Some m) /\ create (on_host Big demo) d None = Ok (Some m') /\
    maps (on_host Little demo) 9 m b 0 [] 0 v n /\ maps (on_host Big demo) 9 m' b 0 [] 0 v' n /\ v <> v'.
Proof.
  exists h_native.
  exists (match create (on_host Little demo) h_native None with Ok (Some m) => m | _ => MSemantic d_word end).
  exists (match create (on_host Big demo) h_native None with Ok (Some m) => m | _ => MSemantic d_word end).
  exists (bs [1; 2; 3; 4]).
  exists (VStruct "native" [("first", VInt 513); ("second", VInt 1027)]).
  exists (VStruct "native" [("first", VInt 258); ("second", VInt 772)]).
  exists 4.
  split. { cbn. unfold explicit. cbn. repeat split; auto; discriminate. }
  split; [vm_compute; reflexivity|]. split; [vm_compute; reflexivity|].
  split; [eexists; split; [vm_compute; reflexivity|vm_compute; reflexivity]|].
  split; [eexists; split; [vm_compute; reflexivity|vm_compute; reflexivity]|].
  discriminate.
Qed.
