{
 "claims": [
  {
   "property": "C01",
   "status": "proved",
   "theorems": [
    "C01_integer_value"
   ],
   "note": ""
  },
  {
   "property": "C02",
   "status": "proved",
   "theorems": [
    "C02_integer_round_trip"
   ],
   "note": ""
  },
  {
   "property": "C03",
   "status": "proved",
   "theorems": [
    "C03_integer_fold_exact"
   ],
   "note": ""
  },
  {
   "property": "C04",
   "status": "proved",
   "theorems": [
    "C04_double_bits",
    "C04_single_bits",
    "C04_single_value",
    "C04_single_rounding",
    "C04_integer_rounding",
    "C04_integer_single_refuted"
   ],
   "note": ""
  },
  {
   "property": "C05",
   "status": "proved",
   "theorems": [
    "C05_boolean_values"
   ],
   "note": ""
  },
  {
   "property": "C06",
   "status": "proved",
   "theorems": [
    "C06_character_values"
   ],
   "note": ""
  },
  {
   "property": "C07",
   "status": "proved",
   "theorems": [
    "C07_uuid"
   ],
   "note": ""
  },
  {
   "property": "C08",
   "status": "proved",
   "theorems": [
    "C08_too_small"
   ],
   "note": ""
  },
  {
   "property": "C09",
   "status": "proved",
   "theorems": [
    "C09_monotone",
    "C09_short_terminator_refuted"
   ],
   "note": "for definitions whose stream terminators are one element long; C09_short_terminator_refuted shows that this is needed"
  },
  {
   "property": "C10",
   "status": "proved",
   "theorems": [
    "C10_window",
    "C10_exact_window",
    "C10_footprint",
    "C10_group_refuted",
    "C10_zero_size_refuted",
    "C10_beyond_refuted"
   ],
   "note": "for maps without structure groups; with groups the footprint is larger than the reported size (C10_footprint, C10_group_refuted)"
  },
  {
   "property": "C11",
   "status": "proved",
   "theorems": [
    "C11_exact",
    "C11_map",
    "C11_padded",
    "C11_offset_refuted",
    "C11_terminator_refuted",
    "C11_multiple_refuted"
   ],
   "note": "for definitions that are sensible and exact; each of the exceptions is refuted"
  },
  {
   "property": "C12",
   "status": "proved",
   "theorems": [
    "C12_fast_path",
    "C12_fast_path_order"
   ],
   "note": ""
  },
  {
   "property": "C13",
   "status": "proved",
   "theorems": [
    "C13_layout"
   ],
   "note": ""
  },
  {
   "property": "C14",
   "status": "proved",
   "theorems": [
    "C14_condition"
   ],
   "note": ""
  },
  {
   "property": "C15",
   "status": "proved",
   "theorems": [
    "C15_supported",
    "C15_unsupported",
    "C15_unsupported_fast"
   ],
   "note": ""
  },
  {
   "property": "C16",
   "status": "proved",
   "theorems": [
    "C16_counted"
   ],
   "note": "for sequences whose element type has a map"
  },
  {
   "property": "C17",
   "status": "proved",
   "theorems": [
    "C17_terminated"
   ],
   "note": "for sequences whose element type has a map"
  },
  {
   "property": "C18",
   "status": "proved",
   "theorems": [
    "C18_sized",
    "C18_variable",
    "C18_size",
    "C18_small_refuted"
   ],
   "note": "for sequences whose element type has a map"
  },
  {
   "property": "C19",
   "status": "proved",
   "theorems": [
    "C19_sized",
    "C19_terminated"
   ],
   "note": ""
  },
  {
   "property": "C20",
   "status": "proved",
   "theorems": [
    "C20_string"
   ],
   "note": ""
  },
  {
   "property": "C21",
   "status": "proved",
   "theorems": [
    "C21_stream_fold_sized",
    "C21_stream_fold_terminated",
    "C21_stream_fold_map",
    "C21_stream_map_fold",
    "C21_string_fold",
    "C21_string_fold_map"
   ],
   "note": ""
  },
  {
   "property": "C22",
   "status": "proved",
   "theorems": [
    "C22_round_trip",
    "C22_fixed_sizes",
    "C22_enclosing_refuted",
    "C22_caller_refuted",
    "C22_sequence_none",
    "C22_fast_characters",
    "C22_fast_booleans",
    "C22_signalling_refuted"
   ],
   "note": "singles that are NaN are excluded, with a witness that they have to be"
  },
  {
   "property": "C23",
   "status": "proved",
   "theorems": [
    "C23_mapping",
    "C23_created",
    "C23_duplicates"
   ],
   "note": ""
  },
  {
   "property": "C24",
   "status": "proved",
   "theorems": [
    "C24_padding"
   ],
   "note": ""
  },
  {
   "property": "C25",
   "status": "proved",
   "theorems": [
    "C25_depth",
    "C25_nested"
   ],
   "note": ""
  },
  {
   "property": "C26",
   "status": "proved",
   "theorems": [
    "C26_terminates",
    "C26_fuel",
    "C26_endless_refuted"
   ],
   "note": "for mappings that start inside the stream with a fresh context"
  },
  {
   "property": "C27",
   "status": "proved",
   "theorems": [
    "C27_structure",
    "C27_contained",
    "C27_size_refuted",
    "C27_structure_refuted",
    "C27_sequence_refuted",
    "C27_stream_refuted",
    "C27_character_refuted",
    "C27_elements_refuted",
    "C27_zero_refuted",
    "C27_names_refuted"
   ],
   "note": "every condition of tame has a witness"
  },
  {
   "property": "C28",
   "status": "proved",
   "theorems": [
    "C28_context"
   ],
   "note": ""
  },
  {
   "property": "C29",
   "status": "proved",
   "theorems": [
    "C29_resume",
    "C29_sequence",
    "C29_group",
    "C29_group_refuted",
    "C29_sequence_refuted",
    "C29_restart_refuted",
    "C29_failed_sequence_refuted",
    "C29_failed_structure_refuted"
   ],
   "note": "the byte size that a resumed structure reports is what the last attempt consumed itself, that of a sequence counts what was mapped before"
  },
  {
   "property": "C30",
   "status": "proved",
   "theorems": [
    "C30_hint",
    "C30_reading",
    "C30_varying_reading",
    "C30_group",
    "C30_group_reading",
    "C30_condition_refuted",
    "C30_terminator_refuted",
    "C30_padding_refuted",
    "C30_nested_padding_refuted",
    "C30_sequence_refuted",
    "C30_bounded_refuted",
    "C30_data_size_refuted",
    "C30_default_refuted",
    "C30_group_member_refuted",
    "C30_done",
    "C30_known",
    "C30_known_refuted"
   ],
   "note": "members mapped in one go, sequences, nested structures of these and groups of such structures; the upper bound without sequences of elements of different sizes and with an evaluator whose results do not change when names are added; refuted without the restrictions"
  },
  {
   "property": "C31",
   "status": "proved",
   "theorems": [
    "C31_registry_lookup"
   ],
   "note": ""
  },
  {
   "property": "C32",
   "status": "proved",
   "theorems": [
    "C32_registry_failure"
   ],
   "note": ""
  },
  {
   "property": "C33",
   "status": "proved",
   "theorems": [
    "C33_registry_alias"
   ],
   "note": ""
  },
  {
   "property": "C34",
   "status": "proved",
   "theorems": [
    "C34_enumeration"
   ],
   "note": "numbers are ints (or bools); other Python objects as numbers are not covered"
  },
  {
   "property": "C35",
   "status": "proved",
   "theorems": [
    "C35_container",
    "C35_structure_size",
    "C35_union_size"
   ],
   "note": ""
  },
  {
   "property": "C36",
   "status": "proved",
   "theorems": [
    "C36_well_formed",
    "C36_negative_number_refuted",
    "C36_section_only_refuted",
    "C36_group_base_refuted",
    "C36_size_true_refuted",
    "C36_layout_refuted"
   ],
   "note": "well_formed lists what the reader guarantees; what the format specification asks beyond it is refuted by witnesses"
  },
  {
   "property": "C37",
   "status": "proved",
   "theorems": [
    "C37_supported_keys",
    "C37_unsupported_stops",
    "C37_section_refuted",
    "C37_enumeration_refuted"
   ],
   "note": "except for keys beside section and keys of enumeration values, which are refuted"
  },
  {
   "property": "C38",
   "status": "proved",
   "theorems": [
    "C38_prefix",
    "C38_concatenation",
    "C38_stops"
   ],
   "note": ""
  },
  {
   "property": "C39",
   "status": "proved",
   "theorems": [
    "C39_references",
    "C39_unresolved",
    "C39_unresolved_any"
   ],
   "note": "that the exception is FormatError is proved for well-typed documents that are no structure group"
  },
  {
   "property": "C40",
   "status": "proved",
   "theorems": [
    "C40_class_factory",
    "C40_instances",
    "C40_hidden",
    "C40_nested"
   ],
   "note": "ASCII names; descriptions are assumed not to break out of the generated docstring"
  },
  {
   "property": "C41",
   "status": "proved",
   "theorems": [
    "C41_file",
    "C41_directory",
    "C41_abort_refuted",
    "C41_describes",
    "C41_exit_code"
   ],
   "note": "the exceptions that escape are characterised; that they abort a directory check is refuted by a witness"
  },
  {
   "property": "C42",
   "status": "proved",
   "theorems": [
    "C42_members",
    "C42_integer_members",
    "C42_elements"
   ],
   "note": ""
  },
  {
   "property": "C43",
   "status": "proved",
   "theorems": [
    "C43_own_type",
    "C43_clash"
   ],
   "note": ""
  },
  {
   "property": "C44",
   "status": "proved",
   "theorems": [
    "C44_values"
   ],
   "note": ""
  },
  {
   "property": "C45",
   "status": "proved",
   "theorems": [
    "C45_errors",
    "C45_group_refuted",
    "C45_terminator_refuted",
    "C45_reading_ends"
   ],
   "note": ""
  },
  {
   "property": "C46",
   "status": "proved",
   "theorems": [
    "C46_file",
    "C46_unique",
    "C46_int"
   ],
   "note": ""
  },
  {
   "property": "C47",
   "status": "proved",
   "theorems": [
    "C47_equality"
   ],
   "note": ""
  },
  {
   "property": "C48",
   "status": "proved",
   "theorems": [
    "C48_reading",
    "C48_sound",
    "C48_complete",
    "C48_unique"
   ],
   "note": ""
  },
  {
   "property": "C49",
   "status": "proved",
   "theorems": [
    "C49_by_name",
    "C49_fabric",
    "C49_empty",
    "C49_covered",
    "C49_always"
   ],
   "note": ""
  },
  {
   "property": "C50",
   "status": "proved",
   "theorems": [
    "C50_file_to_value"
   ],
   "note": ""
  },
  {
   "property": "C51",
   "status": "proved",
   "theorems": [
    "C51_mappable",
    "C51_fails",
    "C51_none",
    "C51_file"
   ],
   "note": ""
  },
  {
   "property": "C52",
   "status": "proved",
   "theorems": [
    "C52_class",
    "C52_modelled",
    "C52_documentation",
    "C52_docstring",
    "C52_code_refuted",
    "C52_escape_refuted"
   ],
   "note": "for descriptions and type names that are harmless in a docstring; C52_code_refuted and C52_escape_refuted show that this is needed"
  },
  {
   "property": "C53",
   "status": "proved",
   "theorems": [
    "C53_truncated"
   ],
   "note": ""
  },
  {
   "property": "C54",
   "status": "proved",
   "theorems": [
    "C54_fits_folds",
    "C54_fits_iff",
    "C54_missing_refuted",
    "C54_unsupported_refuted",
    "C54_condition_refuted"
   ],
   "note": "Values that fit are written and read back, and they are exactly the values that mapping gives. That other values are rejected is refuted: folding checks neither conditions nor supported values, and leaves out members that are None."
  },
  {
   "property": "C55",
   "status": "proved",
   "theorems": [
    "C55_operation",
    "C55_size",
    "C55_structures_refuted",
    "C55_streams_refuted",
    "C55_condition_refuted",
    "C55_order_refuted"
   ],
   "note": "the sizes for definitions whose sequences have elements that are numbers, characters or booleans; refuted for sequences of structures and of streams"
  },
  {
   "property": "C56",
   "status": "proved",
   "theorems": [
    "C56_moves",
    "C56_slice",
    "C56_padding_refuted"
   ],
   "note": "refuted for distances that are not a multiple of the alignment of padding"
  },
  {
   "property": "C57",
   "status": "proved",
   "theorems": [
    "C57_hosts",
    "C57_hint",
    "C57_structure_refuted"
   ],
   "note": "refuted if only the numbers have a byte order and the structure has none"
  },
  {
   "property": "C58",
   "status": "proved",
   "theorems": [
    "C58_encodable",
    "C58_inverse",
    "C58_mapping",
    "C58_folding",
    "C58_round_trip",
    "C58_bytes",
    "C58_null_refuted",
    "C58_unit_refuted"
   ],
   "note": "refuted for texts with null characters and for elements smaller than the pieces of the encoding"
  },
  {
   "property": "C59",
   "status": "proved",
   "theorems": [
    "C59_size",
    "C59_space",
    "C59_terminates",
    "C59_empty_refuted"
   ],
   "note": "refuted for sequences of elements that need not take up space"
  },
  {
   "property": "C60",
   "status": "proved",
   "theorems": [
    "C60_order",
    "C60_maps",
    "C60_fails",
    "C60_names_refuted"
   ],
   "note": "refuted for names of members given as the keys of a mapping"
  },
  {
   "property": "C61",
   "status": "proved",
   "theorems": [
    "C61_taken",
    "C61_reordered",
    "C61_any_order",
    "C61_needed",
    "C61_alias_refuted"
   ],
   "note": "refuted for files in which a name is, but for case, an alias of another definition"
  },
  {
   "property": "C62",
   "status": "proved",
   "theorems": [
    "C62_values",
    "C62_mapped",
    "C62_written"
   ],
   "note": ""
  },
  {
   "property": "C63",
   "status": "proved",
   "theorems": [
    "C63_names",
    "C63_layouts"
   ],
   "note": ""
  },
  {
   "property": "C64",
   "status": "proved",
   "theorems": [
    "C64_tells",
    "C64_boolean_refuted",
    "C64_string_refuted",
    "C64_uuid_refuted",
    "C64_nan_refuted"
   ],
   "note": ""
  },
  {
   "property": "C65",
   "status": "proved",
   "theorems": [
    "C65_appended",
    "C65_agree",
    "C65_next",
    "C65_looking_refuted"
   ],
   "note": ""
  },
  {
   "property": "C66",
   "status": "proved",
   "theorems": [
    "C66_short",
    "C66_three_ways"
   ],
   "note": ""
  },
  {
   "property": "C67",
   "status": "proved",
   "theorems": [
    "C67_writing",
    "C67_unique"
   ],
   "note": ""
  },
  {
   "property": "C68",
   "status": "proved",
   "theorems": [
    "C68_errors",
    "C68_otherwise",
    "C68_stream_refuted",
    "C68_padding_refuted",
    "C68_tuple_refuted"
   ],
   "note": ""
  },
  {
   "property": "C69",
   "status": "proved",
   "theorems": [
    "C69_edit",
    "C69_patch"
   ],
   "note": ""
  },
  {
   "property": "C70",
   "status": "proved",
   "theorems": [
    "C70_disturbed",
    "C70_looking_refuted"
   ],
   "note": ""
  },
  {
   "property": "C71",
   "status": "proved",
   "theorems": [
    "C71_moved_in",
    "C71_moved_out",
    "C71_looking_refuted"
   ],
   "note": ""
  },
  {
   "property": "C72",
   "status": "proved",
   "theorems": [
    "C72_same_values",
    "C72_same_streams",
    "C72_looking_refuted"
   ],
   "note": ""
  },
  {
   "property": "C73",
   "status": "proved",
   "theorems": [
    "C73_unrolled",
    "C73_native_refuted"
   ],
   "note": ""
  },
  {
   "property": "C74",
   "status": "proved",
   "theorems": [
    "C74_elements",
    "C74_streams",
    "C74_strings",
    "C74_terminator_refuted"
   ],
   "note": ""
  },
  {
   "property": "C75",
   "status": "proved",
   "theorems": [
    "C75_sequences",
    "C75_streams"
   ],
   "note": ""
  },
  {
   "property": "C76",
   "status": "proved",
   "theorems": [
    "C76_mapping",
    "C76_hint",
    "C76_folding",
    "C76_hidden_refuted"
   ],
   "note": ""
  },
  {
   "property": "C77",
   "status": "proved",
   "theorems": [
    "C77_needed",
    "C77_mapped",
    "C77_searched",
    "C77_unasked",
    "C77_kept",
    "C77_number_refuted",
    "C77_member_refuted"
   ],
   "note": ""
  },
  {
   "property": "C78",
   "status": "proved",
   "theorems": [
    "C78_folded",
    "C78_mapped",
    "C78_created"
   ],
   "note": ""
  },
  {
   "property": "C79",
   "status": "proved",
   "theorems": [
    "C79_decoded",
    "C79_kept",
    "C79_padding_refuted"
   ],
   "note": ""
  },
  {
   "property": "C80",
   "status": "proved",
   "theorems": [
    "C80_mapped",
    "C80_folded",
    "C80_created"
   ],
   "note": ""
  },
  {
   "property": "C81",
   "status": "proved",
   "theorems": [
    "C81_mapped",
    "C81_alike",
    "C81_created",
    "C81_folded"
   ],
   "note": ""
  },
  {
   "property": "C82",
   "status": "proved",
   "theorems": [
    "C82_mapped",
    "C82_back"
   ],
   "note": ""
  },
  {
   "property": "C83",
   "status": "proved",
   "theorems": [
    "C83_mapped",
    "C83_alike",
    "C83_order"
   ],
   "note": ""
  },
  {
   "property": "C84",
   "status": "proved",
   "theorems": [
    "C84_written",
    "C84_read",
    "C84_alike",
    "C84_cut",
    "C84_joined"
   ],
   "note": ""
  },
  {
   "property": "C85",
   "status": "proved",
   "theorems": [
    "C85_sign",
    "C85_halves",
    "C85_character",
    "C85_boolean",
    "C85_double",
    "C85_mirrored"
   ],
   "note": ""
  },
  {
   "property": "C86",
   "status": "proved",
   "theorems": [
    "C86_stream",
    "C86_leftover_refuted"
   ],
   "note": "for data sizes that are multiples of the size of the integers; C86_leftover_refuted shows that this is needed"
  }
 ]
}