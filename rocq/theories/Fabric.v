(** dtfabric/runtime/fabric.py and the factory of dtfabric/runtime/data_maps.py:
    from definition files to data type maps.

    The definitions the reader builds (Reader.v) keep whatever values the file
    has.  The maps (DataMaps.v) are modelled over definitions whose attributes
    have the types they are meant to have (DataTypes.v).  In Python these are the
    same objects; [typed] is the change of representation, and is None for
    definitions that the model of the maps does not cover. *)
From Coq Require Import String Ascii List ZArith Bool.
From Verif Require Import Base PyVal PyStruct DataTypes ClassFactory DataMaps Yaml Reader Codec.
Import ListNotations.
Open Scope Z_scope.

(** * The definition objects *)

Section Options.
  Context {A B : Type} (f : A -> option B).
  (** All or nothing.  Of the conversion below, for reader.py:109-1245. *)
  Fixpoint every (l : list A) : option (list B) :=
    match l with
    | [] => Some []
    | x :: r =>
        match f x, every r with
        | Some y, Some ys => Some (y :: ys)
        | _, _ => None
        end
    end.
End Options.

(** Text of ASCII characters as a Coq string.  Simplification: text with other
    characters is not covered.  Names come from reader.py:1268. *)
Definition ascii_char (z : Z) : option ascii :=
  if (0 <=? z) && (z <? 128) then Some (ascii_of_nat (Z.to_nat z)) else None.

(** Names come from reader.py:1268. *)
Fixpoint ascii_text (s : ustr) : option string :=
  match s with
  | [] => Some EmptyString
  | c :: r =>
      match ascii_char c, ascii_text r with
      | Some a, Some t => Some (String a t)
      | _, _ => None
      end
  end.

(** Text from a definition, reader.py:218-220. *)
Definition t_text (v : yval) : option string :=
  match v with YStr s => ascii_text s | _ => None end.

(** Text or None.  Such as descriptions and conditions, reader.py:219 and 710.
    *)
Definition t_opt_text (v : yval) : option (option string) :=
  match v with YNull => Some None | _ => option_map Some (t_text v) end.

(** A description: text of any characters in UTF-8, or None.  Simplification: single
    surrogates are not covered.  reader.py:219 and 781. *)
Definition t_description (v : yval) : option (option string) :=
  match v with
  | YNull => Some None
  | YStr s => option_map (fun b => Some (string_of_list_byte b)) (utf8_encode s)
  | _ => None
  end.

(** A list of texts, such as the aliases, reader.py:218. *)
Definition t_texts (v : yval) : option (list string) :=
  match v with YList l => every t_text l | _ => None end.

(** The name None of an unnamed union member is the empty string, as in
    [meta]; the empty name is not covered.  data_types.py:46. *)
Definition t_name (v : yval) : option string :=
  match v with YNull => Some EmptyString | YStr [] => None | _ => t_text v end.

(** Attributes of DataTypeDefinition, data_types.py:31-47. *)
Definition t_meta (m : rmeta) : option meta :=
  match t_name (rm_name m), t_texts (rm_aliases m), t_description (rm_desc m) with
  | Some n, Some a, Some d => Some (mkMeta n a d)
  | _, _, _ => None
  end.

(** definitions.py:4-12. *)
Definition t_order (v : yval) : option byte_order :=
  if y_eqb v (Y "native") then Some BONative
  else if y_eqb v (Y "big-endian") then Some BOBig
  else if y_eqb v (Y "little-endian") then Some BOLittle
  else None.

(** SIZE_NATIVE, definitions.py:17, or a number.  Simplification: other numbers
    (True, 4.0) that the reader accepts as sizes are not covered. *)
Definition t_size (v : yval) : option (option Z) :=
  match v with
  | YInt z => Some (Some z)
  | _ => if y_eqb v y_native then Some None else None
  end.

(** Attributes of FixedSizeDataTypeDefinition, data_types.py:93 and 126-127. *)
Definition t_fixed (f : rfixed) : option fixed :=
  match t_meta (rf_meta f), t_order (rf_bo f), t_size (rf_size f), t_text (rf_units f) with
  | Some m, Some bo, Some s, Some u => Some (mkFixed m bo s u)
  | _, _, _, _ => None
  end.

(** A value that bytes can be mapped to.  Simplification: dates, lists, sets and
    dicts as supported values or terminators are not covered.  Values come from
    reader.py:728-737. *)
Definition t_value (v : yval) : option pyval :=
  match v with
  | YNull => Some VNone
  | YBool b => Some (VBool b)
  | YInt z => Some (VInt z)
  | YFloat b => Some (VFloat b)
  | YStr s => Some (VStr s)
  | YBytes b => Some (VBytes b)
  | _ => None
  end.

(** An attribute that may be unset.  Such as the sizes at reader.py:412-420. *)
Definition t_opt {A B} (f : A -> option B) (o : option A) : option (option B) :=
  match o with None => Some None | Some a => option_map Some (f a) end.

(** Attributes of ElementSequenceDataTypeDefinition, data_types.py:324-333, and
    StringDefinition, data_types.py:398. *)
Definition t_elems (e : relems) : option elems :=
  match t_meta (re_meta e), t_order (re_bo e), t_opt t_text (re_data_size_expr e),
        t_text (re_data_type e), t_opt t_value (re_terminator e),
        t_opt t_text (re_number_expr e), t_text (re_encoding e) with
  | Some m, Some bo, Some ds, Some dt, Some t, Some ne, Some enc =>
      Some (mkElems m bo (re_data_size e) ds (Some dt) t (re_number e) ne enc)
  | _, _, _, _, _, _, _ => None
  end.

(** EnumerationDefinition, data_types.py:735-772: the values added one by one. *)
Fixpoint t_enum (vs : list renum) (acc : enum_def) : option enum_def :=
  match vs with
  | [] => Some acc
  | v :: r =>
      match t_text (rv_name v), t_value (rv_number v), t_texts (rv_aliases v), t_description (rv_desc v) with
      | Some n, Some z, Some a, Some d =>
          match enum_add acc (mkEnumValue n z a d) with
          | (Ok _, acc') => t_enum r acc'
          | _ => None
          end
      | _, _, _, _ => None
      end
  end.

(** LayoutElementDefinition, data_types.py:801-812. *)
Definition t_layout (x : yval * yval) : option (string * option Z) :=
  match t_text (fst x), snd x with
  | Some n, YNull => Some (n, None)
  | Some n, YInt z => Some (n, Some z)
  | _, _ => None
  end.

(** The definition object.  The reader does not set the false and true values of
    a boolean, data_types.py:168-169. *)
Fixpoint typed (d : rdef) : option dtype :=
  match d with
  | RBoolean f => option_map (fun f => DBoolean f (Some 0) None) (t_fixed f)
  | RCharacter f => option_map DCharacter (t_fixed f)
  | RFloat f => option_map DFloat (t_fixed f)
  | RInteger f format =>
      match t_fixed f, t_text format with
      | Some f, Some s => Some (DInteger f (String.eqb s "unsigned"))
      | _, _ => None
      end
  | RUUID f => option_map DUUID (t_fixed f)
  | RPadding m bo align =>
      match t_meta m, t_order bo, align with
      | Some m, Some bo, YInt z => Some (DPadding m bo (Some z))
      | _, _, _ => None
      end
  | RElems k e el =>
      match t_elems e, typed el with
      | Some e, Some el => Some (DElems k e el)
      | _, _ => None
      end
  | RStructure m bo _ ms =>
      match t_meta m, t_order bo, every typed ms with
      | Some m, Some bo, Some ms => Some (DStructure m bo ms)
      | _, _, _ => None
      end
  | RUnion m bo _ ms =>
      match t_meta m, t_order bo, every typed ms with
      | Some m, Some bo, Some ms => Some (DUnion m bo ms)
      | _, _, _ => None
      end
  | RMember m bo c dt vs i =>
      match t_meta m, t_order bo, t_opt_text c, t_opt_text dt, t_opt (every t_value) vs, typed i with
      | Some m, Some bo, Some c, Some dt, Some vs, Some i => Some (DMember m bo c dt vs i)
      | _, _, _, _, _, _ => None
      end
  | RConstant m v =>
      match t_meta m, t_value v with
      | Some m, Some v => Some (DConstant m v)
      | _, _ => None
      end
  | REnumeration m vs =>
      match t_meta m, t_enum vs (mkEnum [] [] [] []) with
      | Some m, Some en => Some (DEnumeration m en)
      | _, _ => None
      end
  | RFormat m bo l _ =>
      match t_meta m, t_opt t_order bo, every t_layout l with
      | Some m, Some bo, Some l => Some (DFormat m bo l)
      | _, _, _ => None
      end
  | RFamily m b ms =>
      match t_meta m, typed b, every typed ms with
      | Some m, Some b, Some ms => Some (DFamily m b ms)
      | _, _, _ => None
      end
  | RGroup m bo b i df ms =>
      match t_meta m, t_order bo, typed b, t_text i,
            (match df with None => Some None | Some x => option_map Some (typed x) end), every typed ms with
      | Some m, Some bo, Some b, Some i, Some df, Some ms => Some (DGroup m bo b i df ms)
      | _, _, _, _, _, _ => None
      end
  end.

(** * The fabric *)

(** DataTypeFabric.__init__, fabric.py:15-30: the registry, or the exception of
    ReadFileObject.  [None]: no definitions or no bytes. *)
Definition fabric (env : yenv) (f : option (list yval * yend)) : res rreg :=
  match f with
  | None => Ok rreg_empty
  | Some (docs, e) =>
      match read_docs env rreg_empty None docs e with
      | (Ok _, r) => Ok r
      | (Raise x, _) => Raise x
      | (OutOfFuel, _) => OutOfFuel
      end
  end.

(** The outcome of creating a map by name.  data_maps.py:2424-2441 and
    2454-2459. *)
Inductive making : Type :=
| Made (m : option dmap)
| MakeError (e : rexc)
| MakeFuel
| Uncovered.

(** DataTypeMapFactory.CreateDataTypeMap, data_maps.py:2424-2441, with
    GetDataTypeDefinition (2462-2471) and CreateDataTypeMapByType (2443-2460).
    [Uncovered] is not a Python outcome: the definition is outside of the model of
    the maps. *)
Definition create_map (orc : oracle) (env : yenv) (r : rreg) (name : yval) : making :=
  match rlookup env r name with
  | RErr e => MakeError e
  | RFuel => MakeFuel
  | ROk None => Made None
  | ROk (Some d) =>
      match typed d with
      | None => Uncovered
      | Some t =>
          match create orc t None with
          | Ok m => Made m
          | Raise e => MakeError (Err e)
          | OutOfFuel => MakeFuel
          end
      end
  end.
