-Q theories Verif
theories/Base.v
theories/Ieee.v
theories/PyVal.v
theories/PyStruct.v
theories/DataTypes.v
theories/Registry.v
theories/ClassFactory.v
theories/ClassText.v
theories/Python.v
theories/SpecText.v
theories/DataMaps.v
theories/BytesProofs.v
theories/SpecPrim.v
theories/SpecNames.v
theories/PrimProofs.v
theories/IeeeProofs.v
theories/Expr.v
theories/Codec.v
theories/FormatText.v
theories/SpecFormat.v
theories/Demo.v
theories/Prop_Prim.v
theories/SpecContainers.v
theories/ContainerProofs.v
theories/Prop_Containers.v
theories/SpecMap.v
theories/MapProofs.v
theories/ContextProofs.v
theories/StructProofs.v
theories/LayoutProofs.v
theories/SpecCreate.v
theories/CreateProofs.v
theories/LinearProofs.v
theories/SeqProofs.v
theories/DemoProofs.v
theories/UseProofs.v
theories/NestProofs.v
theories/PaddingProofs.v
theories/Prop_Structures.v
theories/Prop_Context.v
theories/StreamProofs.v
theories/FixedProofs.v
theories/Prop_Streams.v
theories/GroupProofs.v
theories/Prop_Groups.v
theories/SteadyProofs.v
theories/WindowProofs.v
theories/FindingProofs.v
theories/Prop_Windows.v
theories/SeqKindProofs.v
theories/SizeProofs.v
theories/FormatTextProofs.v
theories/SpecShift.v
theories/ShiftProofs.v
theories/ShiftWitness.v
theories/SpecHost.v
theories/HostProofs.v
theories/HostWitness.v
theories/SpecCodec.v
theories/CodecProofs.v
theories/CodecMapProofs.v
theories/CodecWitness.v
theories/SpecSize.v
theories/PartsProofs.v
theories/PartsWitness.v
theories/SpecKeys.v
theories/KeysProofs.v
theories/KeysWitness.v
theories/SpecPlace.v
theories/PlaceProofs.v
theories/PlaceWitness.v
theories/Values.v
theories/SpecValues.v
theories/ValuesProofs.v
theories/Lookups.v
theories/LookupProofs.v
theories/LookupWitness.v
theories/SpecTell.v
theories/TellProofs.v
theories/TellWitness.v
theories/SpecGrow.v
theories/GrowProofs.v
theories/GrowWitness.v
theories/SpecShort.v
theories/ShortProofs.v
theories/ShortWitness.v
theories/SpecWrites.v
theories/WritesProofs.v
theories/WritesWitness.v
theories/SpecEdit.v
theories/EditProofs.v
theories/DisturbProofs.v
theories/EditWitness.v
theories/SpecRegroup.v
theories/RegroupProofs.v
theories/RegroupWitness.v
theories/SpecRelabel.v
theories/SpecTurn.v
theories/SpecOpaque.v
theories/SpecInline.v
theories/SpecFilter.v
theories/SpecVariant.v
theories/SpecEnlarge.v
theories/RelabelProofs.v
theories/TurnProofs.v
theories/TurnWitness.v
theories/OpaqueWitness.v
theories/RelabelWitness.v
theories/SpecUnroll.v
theories/UnrollProofs.v
theories/UnrollWitness.v
theories/SpecExtent.v
theories/ExtentProofs.v
theories/ExtentWitness.v
theories/PieceProofs.v
theories/PieceWitness.v
theories/SpecHeed.v
theories/HeedProofs.v
theories/OpaqueProofs.v
theories/InlineProofs.v
theories/FilterProofs.v
theories/VariantProofs.v
theories/EnlargeProofs.v
theories/EnlargeWitness.v
theories/SpecRecords.v
theories/RecordsProofs.v
theories/RecordsWitness.v
theories/SpecViews.v
theories/SpecAttributes.v
theories/ViewsProofs.v
theories/RunProofs.v
theories/RunWitness.v
theories/AttributeProofs.v
theories/InlineWitness.v
theories/FilterWitness.v
theories/VariantWitness.v
theories/HeedWitness.v
theories/SpecRequest.v
theories/RequestProofs.v
theories/RequestWitness.v
theories/Prop_Sequences.v
theories/FuelProofs.v
theories/TruncProofs.v
theories/DivergeProofs.v
theories/Prop_Termination.v
theories/NameProofs.v
theories/SpecDoc.v
theories/TextProofs.v
theories/DocProofs.v
theories/ErrorProofs.v
theories/RawProofs.v
theories/Prop_Errors.v
theories/SpecFold.v
theories/SpecFits.v
theories/FoldProofs.v
theories/RefoldProofs.v
theories/FitProofs.v
theories/FitWitness.v
theories/SpecPlain.v
theories/PlainProofs.v
theories/PlainWitness.v
theories/Prop_Folding.v
theories/SpecResume.v
theories/ResumeProofs.v
theories/SeqResumeProofs.v
theories/GroupResumeProofs.v
theories/ResumeWitness.v
theories/Prop_Resume.v
theories/SpecHint.v
theories/HintProofs.v
theories/NestHintProofs.v
theories/KnownHintProofs.v
theories/HintWitness.v
theories/FormatWitness.v
theories/Prop_Hints.v
theories/Yaml.v
theories/Reader.v
theories/Validator.v
theories/SpecReader.v
theories/ReaderProofs.v
theories/ReaderTotal.v
theories/ReadFileProofs.v
theories/ReaderRefs.v
theories/ReaderErrors.v
theories/DemoYaml.v
theories/ReaderFindings.v
theories/Prop_Reader.v
theories/SpecEqual.v
theories/EqualProofs.v
theories/IntProofs.v
theories/SpecDescribe.v
theories/DescribeProofs.v
theories/ValidatorProofs.v
theories/Prop_Describe.v
theories/Prop_Equal.v
theories/SpecReads.v
theories/FloatProofs.v
theories/SpecRound.v
theories/RoundProofs.v
theories/ReadsProofs.v
theories/ReadsWitness.v
theories/Prop_Reads.v
theories/Fabric.v
theories/SpecFabric.v
theories/FabricProofs.v
theories/SpecMake.v
theories/MakeProofs.v
theories/FileProofs.v
theories/FileWitness.v
theories/Prop_Fabric.v
theories/SameProofs.v
theories/Prop_Classes.v
theories/Prop_ClassText.v
theories/Prop_Truncation.v
theories/Prop_Rounding.v
theories/Prop_Fits.v
theories/Prop_Format.v
theories/Prop_Shift.v
theories/Prop_Host.v
theories/Prop_Codec.v
theories/Prop_Size.v
theories/Prop_Keys.v
theories/Prop_Place.v
theories/Prop_Values.v
theories/Prop_Lookups.v
theories/Prop_Tell.v
theories/Prop_Grow.v
theories/Prop_Short.v
theories/Prop_Writes.v
theories/Prop_Edit.v
theories/Prop_Regroup.v
theories/Prop_Validator.v
theories/Prop_Relabel.v
theories/Prop_Unroll.v
theories/Prop_Extent.v
theories/Prop_Piece.v
theories/Prop_Heed.v
theories/Prop_Request.v
theories/Prop_Turn.v
theories/Prop_Opaque.v
theories/Prop_Inline.v
theories/Prop_Filter.v
theories/Prop_Variant.v
theories/Prop_Enlarge.v
theories/Prop_Records.v
theories/Prop_Views.v
theories/Prop_Run.v
