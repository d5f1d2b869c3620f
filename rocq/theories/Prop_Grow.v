(** C65: members appended to a structure do not change the members before them. *)
From Coq Require Import String Ascii List ZArith Bool Lia.
From Verif Require Import Base PyVal PyStruct DataTypes ClassFactory DataMaps Demo DemoProofs SpecPrim SpecMap SpecCreate SpecReads SpecGrow ReadsWitness GrowProofs GrowWitness.
Import ListNotations.
Open Scope string_scope.
Open Scope list_scope.
Open Scope Z_scope.

(** C65. What the longer definition maps, the shorter one maps too, to the value without the appended members. *)
Theorem C65_appended : forall orc mt mt' bo ms more m m' fuel bs off vals depth depth' v' n',
  extensional orc -> m_name mt' = m_name mt ->
  everywhere regular (DStructure mt bo ms) -> everywhere regular (DStructure mt' bo (ms ++ more)) ->
  everywhere (overlooks orc (map dt_name more)) (DStructure mt bo ms) ->
  create orc (DStructure mt bo ms) None = Ok (Some m) ->
  create orc (DStructure mt' bo (ms ++ more)) None = Ok (Some m') ->
  0 <= off <= len bs -> depth' + levels (DStructure mt bo ms) <= 11 ->
  maps orc fuel m' bs off vals depth v' n' ->
  exists fuel' fields extra n,
    maps orc fuel' m bs off vals depth' (VStruct (m_name mt) fields) n /\
    v' = VStruct (m_name mt) (fields ++ extra) /\
    map fst fields = map dt_name ms /\ map fst extra = map dt_name more /\ 0 <= n <= n'.
Proof. exact GrowProofs.maps_grown. Qed.
Print Assumptions C65_appended.

Example C65_example_appended :
  extensional demo /\ everywhere regular d_shape /\ everywhere regular d_shape2 /\
  everywhere (overlooks demo (map dt_name shape_more)) d_shape /\
  create demo d_shape2 None = Ok (Some (the_map d_shape2)) /\ levels d_shape <= 11 /\
  exists extra, maps demo 20 (the_map d_shape2) shape2_bytes 0 [] 0
    (match shape_value with VStruct cls l => VStruct cls (l ++ extra) | v => v end) 18 /\
  extra = [("flags", VInt 1); ("area", VInt 9)].
Proof.
  split; [exact extensional_demo|]. split; [exact shape_regular|]. split; [exact shape2_regular|].
  split; [apply shape_overlooks; reflexivity|]. split; [vm_compute; reflexivity|]. split; [vm_compute; discriminate|].
  eexists. split; [|reflexivity]. eexists; split; vm_compute; reflexivity.
Qed.

(** C65. Where both definitions map, they agree on the members they share. *)
Theorem C65_agree : forall orc mt mt' bo ms more m m' fuel fuel' bs off vals depth depth' v v' n n',
  extensional orc -> m_name mt' = m_name mt ->
  everywhere regular (DStructure mt bo ms) -> everywhere regular (DStructure mt' bo (ms ++ more)) ->
  everywhere (overlooks orc (map dt_name more)) (DStructure mt bo ms) ->
  create orc (DStructure mt bo ms) None = Ok (Some m) ->
  create orc (DStructure mt' bo (ms ++ more)) None = Ok (Some m') ->
  0 <= off <= len bs -> levels (DStructure mt bo ms) <= 11 ->
  maps orc fuel m bs off vals depth v n -> maps orc fuel' m' bs off vals depth' v' n' ->
  exists fields extra,
    v = VStruct (m_name mt) fields /\ v' = VStruct (m_name mt) (fields ++ extra) /\
    map fst fields = map dt_name ms /\ map fst extra = map dt_name more /\ 0 <= n <= n'.
Proof. exact GrowProofs.grown_agrees. Qed.
Print Assumptions C65_agree.

Example C65_example_agree :
  maps demo 20 (the_map d_shape) shape2_bytes 0 [] 0 shape_value 12 /\
  exists v, maps demo 20 (the_map d_shape2) shape2_bytes 0 [] 0 v 18.
Proof. split; [eexists; split; vm_compute; reflexivity|]. eexists. eexists; split; vm_compute; reflexivity. Qed.

(** C65. One member more is what its type maps where the structure without it ended. *)
Theorem C65_next : forall orc mt mt' bo ms x m m' t bs off vals depth v' n',
  extensional orc -> m_name mt' = m_name mt ->
  everywhere regular (DStructure mt bo ms) -> everywhere regular (DStructure mt' bo (ms ++ [x])) ->
  everywhere regular (used_type (m_name mt) bo x) ->
  everywhere (overlooks orc [dt_name x]) (DStructure mt bo ms) ->
  everywhere wordless x ->
  create orc (DStructure mt bo ms) None = Ok (Some m) ->
  create orc (DStructure mt' bo (ms ++ [x])) None = Ok (Some m') ->
  create orc (used_type (m_name mt) bo x) None = Ok (Some t) ->
  0 <= off <= len bs -> depth + levels (DStructure mt' bo (ms ++ [x])) <= 11 ->
  ((exists fuel, maps orc fuel m' bs off vals depth v' n') <->
   exists fuel fields n w k,
     maps orc fuel m bs off vals depth (VStruct (m_name mt) fields) n /\
     maps orc fuel t bs (off + n) [] depth w k /\ allowed x w /\
     v' = VStruct (m_name mt) (fields ++ [(dt_name x, w)]) /\ n' = n + k).
Proof. exact GrowProofs.next_member. Qed.
Print Assumptions C65_next.

Example C65_example_next :
  everywhere regular d_shape3 /\ everywhere regular d_point /\ everywhere wordless (member "centre" d_point) /\
  used_type "shape" BOLittle (member "centre" d_point) = d_point /\
  everywhere (overlooks demo ["centre"]) d_shape /\ levels d_shape3 <= 11 /\
  create demo d_shape3 None = Ok (Some (the_map d_shape3)) /\ create demo d_point None = Ok (Some (the_map d_point)) /\
  maps demo 20 (the_map d_shape) shape3_bytes 0 [] 0 shape_value 12 /\
  maps demo 20 (the_map d_point) shape3_bytes 12 [] 0 (VStruct "point" [("x", VInt 5); ("y", VInt 6)]) 4 /\
  allowed (member "centre" d_point) (VStruct "point" [("x", VInt 5); ("y", VInt 6)]).
Proof.
  split; [exact shape3_regular|]. split; [exact point_regular|]. split; [unfold wordless; cbn; tauto|]. split; [reflexivity|].
  split; [apply shape_overlooks; reflexivity|]. split; [vm_compute; discriminate|]. split; [vm_compute; reflexivity|].
  split; [vm_compute; reflexivity|]. split; [eexists; split; vm_compute; reflexivity|].
  split; [eexists; split; vm_compute; reflexivity|]. exact I.
Qed.

(** C65. A condition on a member that comes later is false with that member and an error without it. *)
Theorem C65_looking_refuted : exists mt bo ms x m m' b v n,
  everywhere regular (DStructure mt bo ms) /\ everywhere regular (DStructure mt bo (ms ++ [x])) /\
  create demo (DStructure mt bo ms) None = Ok (Some m) /\
  create demo (DStructure mt bo (ms ++ [x])) None = Ok (Some m') /\
  maps demo 20 m' b 0 [] 0 v n /\
  fst (mapbs demo 20 m b 0 (Some (ctx_new [])) 0) = Raise MappingError.
Proof. exact GrowWitness.grow_looking_refuted. Qed.
Print Assumptions C65_looking_refuted.
