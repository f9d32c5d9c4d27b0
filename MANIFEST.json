{
 "claims": [
  {
   "property": "C01",
   "status": "proved",
   "theorems": [
    "C01_roundtrip",
    "C01_NewValueFromMsgPack",
    "C01_roundtrip_any"
   ],
   "note": "Round trip for every plain value, self-delimiting; the generalisation covers any value that has a message."
  },
  {
   "property": "C02",
   "status": "proved",
   "theorems": [
    "C02_shortest",
    "C02_decode_exact"
   ],
   "note": ""
  },
  {
   "property": "C03",
   "status": "proved",
   "theorems": [
    "C03_output_conforms",
    "C03_append_only",
    "C03_accepts_all_conforming",
    "C03_fixext_refuted"
   ],
   "note": "Output conforms except for extension payloads of 1, 2, 4, 8 or 16 bytes, where it is proved never to conform."
  },
  {
   "property": "C04",
   "status": "proved",
   "theorems": [
    "C04_truncation",
    "C04_truncation_any_conforming"
   ],
   "note": ""
  },
  {
   "property": "C05",
   "status": "proved",
   "theorems": [
    "C05_terminates",
    "C05_prefix_determined"
   ],
   "note": ""
  },
  {
   "property": "C06",
   "status": "proved",
   "theorems": [
    "C06_refuted",
    "C06_outcomes",
    "C06_fatal_panics",
    "C06_sound"
   ],
   "note": "Violated by the code; the violating families are characterised and everything accepted is proved to be a message up to named leniencies."
  },
  {
   "property": "C07",
   "status": "proved",
   "theorems": [
    "C07_roundtrip",
    "C07_fixext_refuted"
   ],
   "note": "Exact result for the five violating lengths."
  },
  {
   "property": "C08",
   "status": "proved",
   "theorems": [
    "C08_duplicate_keys"
   ],
   "note": "Under IgnoreCase assumes EqualFold is an equivalence."
  },
  {
   "property": "C09",
   "status": "proved",
   "theorems": [
    "C09_timestamp_exact",
    "C09_decode_all_formats"
   ],
   "note": "Conversion between instants and the Delphi float is external."
  },
  {
   "property": "C51",
   "status": "proved",
   "theorems": [
    "C51_nan_inf_refuted"
   ],
   "note": ""
  },
  {
   "property": "C11",
   "status": "proved",
   "theorems": [
    "C11_roundtrip",
    "C11_encodes",
    "C11_roundtrip_any",
    "C11_decodes_conforming"
   ],
   "note": "Assumes the external index parser inverts decimal printing."
  },
  {
   "property": "C12",
   "status": "proved",
   "theorems": [
    "C12_integers",
    "C12_refuted"
   ],
   "note": "Exact result for every int64; violated for -2^31..-1."
  },
  {
   "property": "C13",
   "status": "proved",
   "theorems": [
    "C13_float32_refuted"
   ],
   "note": "Violated for every non-zero float32 with a clean slot; compared by exact real value."
  },
  {
   "property": "C14",
   "status": "proved",
   "theorems": [
    "C14_binary_refuted",
    "C14_grows"
   ],
   "note": "Violated for every generic binary."
  },
  {
   "property": "C15",
   "status": "proved",
   "theorems": [
    "C15_top_refuted",
    "C15_nested_refuted",
    "C15_array_refuted"
   ],
   "note": "Violated; exact results at any position of a document."
  },
  {
   "property": "C16",
   "status": "proved",
   "theorems": [
    "C16_headers",
    "C16_conforms"
   ],
   "note": ""
  },
  {
   "property": "C17",
   "status": "proved",
   "theorems": [
    "C17_terminates",
    "C17_object"
   ],
   "note": ""
  },
  {
   "property": "C18",
   "status": "proved",
   "theorems": [
    "C18_roundtrip"
   ],
   "note": "For any escaping functions that are inverse on the strings of the value and produce string tokens; a bare top-level integer needs a following blank (C24)."
  },
  {
   "property": "C19",
   "status": "proved",
   "theorems": [
    "C19_same",
    "C19_binary_refuted"
   ],
   "note": "Compact and formatted text denote the same document; short binaries panic the formatter."
  },
  {
   "property": "C20",
   "status": "proved",
   "theorems": [
    "C20_total",
    "C20_accepts",
    "C20_rfc8259"
   ],
   "note": "Total; accepted language and meaning characterised exactly."
  },
  {
   "property": "C21",
   "status": "proved",
   "theorems": [
    "C21_string_end",
    "C21_unterminated"
   ],
   "note": ""
  },
  {
   "property": "C22",
   "status": "proved",
   "theorems": [
    "C22_whitespace",
    "C22_leading"
   ],
   "note": ""
  },
  {
   "property": "C23",
   "status": "proved",
   "theorems": [
    "C23_trailing"
   ],
   "note": "Excludes garbage starting with l, which can turn the token nul into null."
  },
  {
   "property": "C24",
   "status": "proved",
   "theorems": [
    "C24_nil_exactly",
    "C24_value_refuted"
   ],
   "note": "Violated; exact set of inputs given."
  },
  {
   "property": "C25",
   "status": "proved",
   "theorems": [
    "C25_literals",
    "C25_nan_exactly",
    "C25_nan_refuted"
   ],
   "note": "true/false/null exact; NaN violated with the exact set."
  },
  {
   "property": "C26",
   "status": "proved",
   "theorems": [
    "C26_printable",
    "C26_refuted",
    "C26_position"
   ],
   "note": "Violated exactly for unterminated keys."
  },
  {
   "property": "C27",
   "status": "proved",
   "theorems": [
    "C27_agrees",
    "C27_total",
    "C27_number_refuted",
    "C27_garbage_refuted",
    "C27_refuted"
   ],
   "note": "Holds where stated; violated elsewhere."
  },
  {
   "property": "C52",
   "status": "proved",
   "theorems": [
    "C52_escaped_quote_refuted",
    "C52_rfc_refuted"
   ],
   "note": "Violated."
  },
  {
   "property": "C53",
   "status": "proved",
   "theorems": [
    "C53_float_back",
    "C53_double_refuted"
   ],
   "note": "Violated for doubles."
  },
  {
   "property": "C54",
   "status": "proved",
   "theorems": [
    "C54_truncated_refuted"
   ],
   "note": "Violated."
  },
  {
   "property": "C28",
   "status": "proved",
   "theorems": [
    "C28_ordered_map",
    "C28_readers"
   ],
   "note": "For any external fold/unescape functions that are an equivalence resp. the identity on plain text; calls interleaved with anything that does not touch the object."
  },
  {
   "property": "C29",
   "status": "proved",
   "theorems": [
    "C29_no_duplicates"
   ],
   "note": ""
  },
  {
   "property": "C30",
   "status": "proved",
   "theorems": [
    "C30_lists",
    "C30_readers"
   ],
   "note": ""
  },
  {
   "property": "C31",
   "status": "proved",
   "theorems": [
    "C31_reading_invisible",
    "C31_two_spellings_refuted",
    "C31_key_name_refuted"
   ],
   "note": "Holds for distinct unescaped keys; violated with two spellings of one key and for KeyNameByIndex."
  },
  {
   "property": "C32",
   "status": "proved",
   "theorems": [
    "C32_walk",
    "C32_concat",
    "C32_getters"
   ],
   "note": ""
  },
  {
   "property": "C33",
   "status": "proved",
   "theorems": [
    "C33_path_found",
    "C33_index_beyond_end_refuted"
   ],
   "note": "Holds on acyclic graphs in use with distinct keys when no array index of the path lies beyond the end; violated for an index beyond the end."
  },
  {
   "property": "C34",
   "status": "proved",
   "theorems": [
    "C34_constants",
    "C34_hidden_state_refuted"
   ],
   "note": "Type, content and all readers hold for every call sequence; hidden state carried by a constant is exhibited."
  },
  {
   "property": "C39",
   "status": "proved",
   "theorems": [
    "C39_clean",
    "C39_number_survives_refuted"
   ],
   "note": "Violated for the numeric field."
  },
  {
   "property": "C35",
   "status": "proved",
   "theorems": [
    "C35_content",
    "C35_original_independent",
    "C35_copy_independent",
    "C35_copy_in_recycled_cache",
    "C35_binary_refuted",
    "C35_shared_boolean_refuted",
    "C35_nil_entry_refuted"
   ],
   "note": "Holds for trees without binaries, nil entries and mutable booleans (extension types are dropped); violations exhibited for these."
  },
  {
   "property": "C36",
   "status": "proved",
   "theorems": [
    "C36_reflexive",
    "C36_exact",
    "C36_symmetric",
    "C36_array_length_refuted",
    "C36_float_slot_refuted",
    "C36_raw_string_refuted"
   ],
   "note": "Exact characterisation for trees without raw strings and float32 and with matching array lengths; the excluded cases are refuted by witnesses."
  },
  {
   "property": "C37",
   "status": "proved",
   "theorems": [
    "C37_union",
    "C37_union_lookup",
    "C37_nested",
    "C37_nested_lost_refuted",
    "C37_container_refuted",
    "C37_constant_refuted",
    "C37_escaped_key_refuted"
   ],
   "note": "Union proved under the conditions in the statement. When a container of the receiver meets a value of the argument the whole outcome is proved, for any depth, including what is lost (an array meeting an object excepted); the other ways the union fails are proved by witnesses."
  },
  {
   "property": "C38",
   "status": "proved",
   "theorems": [
    "C38_union",
    "C38_other"
   ],
   "note": "For plain contents with matching array shapes, the domain on which Equal is exact."
  },
  {
   "property": "C42",
   "status": "proved",
   "theorems": [
    "C42_int",
    "C42_string",
    "C42_bool",
    "C42_double",
    "C42_time",
    "C42_float",
    "C42_raw_string",
    "C42_key_int",
    "C42_key_string",
    "C42_key_double",
    "C42_key_time",
    "C42_key_float",
    "C42_key_bool",
    "C42_float_bool_refuted",
    "C42_effect"
   ],
   "note": "All setters and keyed setters; Bool after SetFloat is refuted by a witness family."
  },
  {
   "property": "C43",
   "status": "proved",
   "theorems": [
    "C43_content",
    "C43_own_array",
    "C43_history",
    "C43_decode_copy",
    "C43_shared_refuted",
    "C43_ext_lost_refuted"
   ],
   "note": "For copying calls, whatever the runtime chooses as spare capacity; shared buffers are refuted by a witness."
  },
  {
   "property": "C55",
   "status": "proved",
   "theorems": [
    "C55_panics",
    "C55_shows_prefix",
    "C55_reset",
    "C55_leak_refuted"
   ],
   "note": "Exact panic condition; shows its own bytes when long enough, refuted for shorter ones; after Reset the previous kind does not matter."
  },
  {
   "property": "C40",
   "status": "proved",
   "theorems": [
    "C40_single_owner",
    "C40_no_cache",
    "C40_double_free",
    "C40_stale_free_refuted",
    "C40_race_refuted"
   ],
   "note": "Any number of goroutines, one memory access or pool call per step, all interleavings. The provision (no use after free or handover) is needed: two _refuted theorems give schedules."
  },
  {
   "property": "C41",
   "status": "proved",
   "theorems": [
    "C41_readers",
    "C41_answer_unique",
    "C41_wait_free",
    "C41_alone",
    "C41_fresh_refuted"
   ],
   "note": "Any number of goroutines, any number of lookups each, all schedules of single memory accesses. Freshly parsed objects with escaped keys are refuted by a schedule."
  },
  {
   "property": "C50",
   "status": "proved",
   "theorems": [
    "C50_content",
    "C50_returned",
    "C50_bom",
    "C50_no_bom",
    "C50_msgpack",
    "C50_written",
    "C50_loaded",
    "C50_yaml",
    "C50_yaml_read"
   ],
   "note": "All contents, all chunkings, all reported sizes, all growth choices of append; writing with Value2File and reading back included."
  },
  {
   "property": "C56",
   "status": "proved",
   "theorems": [
    "C56_refuted",
    "C56_other_files"
   ],
   "note": "The property is violated for every binary value: proved as a refutation over all file systems and contents."
  },
  {
   "property": "C44",
   "status": "proved",
   "theorems": [
    "C44_terminates",
    "C44_all_inputs",
    "C44_short_tail_refuted",
    "C44_self_merge_refuted"
   ],
   "note": "Violated; termination proved for every document without an asterisk whose last line is not one byte; both violating families proved to diverge for all fuel."
  },
  {
   "property": "C45",
   "status": "proved",
   "theorems": [
    "C45_blank_line_refuted",
    "C45_short_line_skipped"
   ],
   "note": "Violated for lines of two or more blanks."
  },
  {
   "property": "C46",
   "status": "proved",
   "theorems": [
    "C46_value",
    "C46_load"
   ],
   "note": "All pool histories."
  },
  {
   "property": "C47",
   "status": "proved",
   "theorems": [
    "C47_new",
    "C47_load"
   ],
   "note": ""
  },
  {
   "property": "C57",
   "status": "proved",
   "theorems": [
    "C57_refuted",
    "C57_control",
    "C57_cause"
   ],
   "note": "Violated; the cause is proved for all heaps."
  },
  {
   "property": "C58",
   "status": "proved",
   "theorems": [
    "C58_refuted",
    "C58_leading"
   ],
   "note": "Violated; see C47 for the documents on which both agree. White space before the document is ignored by LoadFromYaml for every document."
  },
  {
   "property": "C59",
   "status": "proved",
   "theorems": [
    "C59_object_refuted",
    "C59_array_refuted"
   ],
   "note": "Violated for every fuel."
  },
  {
   "property": "C60",
   "status": "proved",
   "theorems": [
    "C60_confined",
    "C60_load_confined"
   ],
   "note": ""
  },
  {
   "property": "C10",
   "status": "proved",
   "theorems": [
    "C10_outcome",
    "C10_content",
    "C10_exact",
    "C10_string_refuted",
    "C10_empty_refuted",
    "C10_time_refuted",
    "C10_map_into_array_refuted",
    "C10_empty_message_refuted"
   ],
   "note": "Content: C10_exact is an equivalence over all receivers, so both those for which it holds and those for which it fails."
  },
  {
   "property": "C61",
   "status": "proved",
   "theorems": [
    "C61_content",
    "C61_failure",
    "C61_confined",
    "C61_float_refuted"
   ],
   "note": "Float32 by its 32 bits; the 64-bit comparison is refuted."
  },
  {
   "property": "C48",
   "status": "proved",
   "theorems": [
    "C48_set_value",
    "C48_set_key",
    "C48_distinct_keys",
    "C48_ignorecase_refuted"
   ],
   "note": "Holds when no two keys are the same for the library; with IgnoreCase and keys that differ in case only it fails."
  },
  {
   "property": "C62",
   "status": "proved",
   "theorems": [
    "C62_set_value",
    "C62_set_key",
    "C62_set_index",
    "C62_map_pointer",
    "C62_hidden",
    "C62_nil_elements_refuted",
    "C62_ignored_refuted",
    "C62_uint_field_refuted",
    "C62_nil_pointer_refuted",
    "C62_uint_refuted",
    "C62_bytes_refuted",
    "C62_time_refuted",
    "C62_existing_key_refuted"
   ],
   "note": "Positive for the values described by kept; each class left out is refuted; unexported fields that are not of a basic kind leave no trace."
  },
  {
   "property": "C49",
   "status": "proved",
   "theorems": [
    "C49_export",
    "C49_objects",
    "C49_kind",
    "C49_strings",
    "C49_arrays_refuted",
    "C49_slice_refuted",
    "C49_number_refuted",
    "C49_keys_refuted",
    "C49_string_slice_refuted",
    "C49_string_slice_other"
   ],
   "note": "Positive for objects of objects and scalars; the losses named in the statement are refutations."
  },
  {
   "property": "C63",
   "status": "proved",
   "theorems": [
    "C63_struct",
    "C63_refused",
    "C63_top_slice_refuted",
    "C63_filled_slice_refuted",
    "C63_time_slice_refuted",
    "C63_stale_refuted",
    "C63_bytes_refuted",
    "C63_exact_refuted"
   ],
   "note": "Positive whenever conv describes a content; each class named in the statement is refuted."
  },
  {
   "property": "C64",
   "status": "proved",
   "theorems": [
    "C64_round_trip",
    "C64_bytes_refuted",
    "C64_pointer_refuted"
   ],
   "note": ""
  },
  {
   "property": "C65",
   "status": "proved",
   "theorems": [
    "C65_string",
    "C65_getters",
    "C65_refuted"
   ],
   "note": "String is stable under repetition; the other getters are not stable under String."
  },
  {
   "property": "C66",
   "status": "proved",
   "theorems": [
    "C66_content",
    "C66_failure",
    "C66_confined"
   ],
   "note": "Assumes that StrToIntDef returns an int64 and float32 conversion 32 bits (num_env)."
  },
  {
   "property": "C67",
   "status": "proved",
   "theorems": [
    "C67_content",
    "C67_failure",
    "C67_agrees",
    "C67_frame",
    "C67_stale_refuted"
   ],
   "note": "Failed loads are covered when no removed pair is left behind the list; otherwise refuted."
  },
  {
   "property": "C68",
   "status": "proved",
   "theorems": [
    "C68_content",
    "C68_failure",
    "C68_confined"
   ],
   "note": "Input elements are assumed to be bytes."
  },
  {
   "property": "C69",
   "status": "proved",
   "theorems": [
    "C69_content",
    "C69_other",
    "C69_failure",
    "C69_panic",
    "C69_array_refuted"
   ],
   "note": "Holds for every receiver, arrays provided the first name of the document is no number; arrays and numeric first names are refuted by a witness."
  },
  {
   "property": "C70",
   "status": "proved",
   "theorems": [
    "C70_mapping",
    "C70_list",
    "C70_load_mapping",
    "C70_load_list"
   ],
   "note": "Grammar in YamlTreeSpec.v; list items with other first entries are in C71, lists at the indentation of their key in C72."
  },
  {
   "property": "C71",
   "status": "proved",
   "theorems": [
    "C71_nested_first_refuted",
    "C71_nested_first_control",
    "C71_list_first_refuted",
    "C71_list_item_refuted"
   ],
   "note": "Refuted by witnesses."
  },
  {
   "property": "C72",
   "status": "proved",
   "theorems": [
    "C72_refuted"
   ],
   "note": "Refuted for every instance."
  },
  {
   "property": "C73",
   "status": "proved",
   "theorems": [
    "C73_decorated",
    "C73_crlf",
    "C73_dash_refuted"
   ],
   "note": "Holds for lines whose text has at least two bytes and no earlier comment; refuted for a lone dash."
  },
  {
   "property": "C74",
   "status": "proved",
   "theorems": [
    "C74_msgpack",
    "C74_json",
    "C74_format",
    "C74_bson"
   ],
   "note": "For all values whose cells unfold to a tree; fuel large enough for the tree."
  },
  {
   "property": "C75",
   "status": "proved",
   "theorems": [
    "C75_reading",
    "C75_bson",
    "C75_settled",
    "C75_output_refuted",
    "C75_lookup_refuted"
   ],
   "note": "MsgPack bytes and lookups among keys that differ in escaping only are refuted by witnesses."
  },
  {
   "property": "C76",
   "status": "proved",
   "theorems": [
    "C76_msgpack",
    "C76_bson",
    "C76_json",
    "C76_msgpack_text_refuted"
   ],
   "note": "Ranges of C01, C11, C18. Text through MsgPack refuted by a witness."
  },
  {
   "property": "C77",
   "status": "proved",
   "theorems": [
    "C77_object",
    "C77_array",
    "C77_keys_refuted",
    "C77_flag_refuted",
    "C77_self_refuted"
   ],
   "note": "Source without binaries and nil entries that does not contain the receiver; duplicate keys, the overwritten flag and self-addition refuted."
  },
  {
   "property": "C78",
   "status": "proved",
   "theorems": [
    "C78_content",
    "C78_binary_refuted",
    "C78_self_refuted"
   ],
   "note": "Source without binaries and nil entries that does not contain the receiver; the others refuted."
  },
  {
   "property": "C79",
   "status": "proved",
   "theorems": [
    "C79_roundtrip",
    "C79_kind_refuted"
   ],
   "note": "Values passed as *DxValue; numbers at the top and receivers of another kind refuted."
  },
  {
   "property": "C80",
   "status": "proved",
   "theorems": [
    "C80_verdicts",
    "C80_lookup",
    "C80_first_path",
    "C80_path_refuted",
    "C80_key_never_announced_refuted",
    "C80_nested_array_refuted",
    "C80_array_lost_refuted"
   ],
   "note": "MO_Normal for scalars, MO_Replace for anything but nil, MO_Custom for anything; the announced paths and colliding containers are refuted."
  },
  {
   "property": "C81",
   "status": "proved",
   "theorems": [
    "C81_order",
    "C81_key_name",
    "C81_remove_refuted",
    "C81_append_diverges",
    "C81_key_name_refuted",
    "C81_lookup_refuted"
   ],
   "note": "The callback may do anything as long as some invariant pins down the entries of the container; the rest are exact descriptions or witnesses of what goes wrong otherwise."
  },
  {
   "property": "C82",
   "status": "proved",
   "theorems": [
    "C82_by_path",
    "C82_effect",
    "C82_time_back",
    "C82_float_back",
    "C82_text_back",
    "C82_default_refuted",
    "C82_set_time_refuted",
    "C82_conversions"
   ],
   "note": "Parsing and conversion of times are parameters."
  },
  {
   "property": "C83",
   "status": "proved",
   "theorems": [
    "C83_marshal",
    "C83_unmarshal",
    "C83_empty",
    "C83_refuted",
    "C83_failure",
    "C83_panic"
   ],
   "note": "The exact effect on the caller's value is C83_unmarshal; that the value is loaded is refuted by C83_empty and C83_refuted. For documents that fail, C83_failure gives the error, the type and the length, not the content of a container."
  },
  {
   "property": "C84",
   "status": "proved",
   "theorems": [
    "C84_content",
    "C84_copy",
    "C84_shared",
    "C84_shared_list",
    "C84_ignored_refuted",
    "C84_stale_refuted",
    "C84_time_refuted"
   ],
   "note": "root_kept and goal (ReflectSpec.v) say which Go values are kept and what they should read as; values with EncodeToDxValue methods and DxValues inside are in C95 and C96."
  },
  {
   "property": "C85",
   "status": "proved",
   "theorems": [
    "C85_mapping",
    "C85_list",
    "C85_load_mapping",
    "C85_load_list",
    "C85_bool_refuted",
    "C85_bool_control",
    "C85_map_anchor_refuted",
    "C85_map_anchor_control",
    "C85_tail_refuted"
   ],
   "note": "Assumes of the library's number parser that no text starting with & or * is a number. Anchors on mappings (merge keys) are C46 and C57, and the refuted statements here."
  },
  {
   "property": "C86",
   "status": "proved",
   "theorems": [
    "C86_yaml",
    "C86_load_yaml",
    "C86_bson",
    "C86_load_bson"
   ],
   "note": "YAML documents with references are in C85 (same conclusion)."
  },
  {
   "property": "C87",
   "status": "proved",
   "theorems": [
    "C87_json",
    "C87_msgpack",
    "C87_clone",
    "C87_copy_from",
    "C87_add_from",
    "C87_new_from",
    "C87_set_value",
    "C87_load_json",
    "C87_load_msgpack",
    "C87_set_string",
    "C87_edit",
    "C87_constant_refuted"
   ],
   "note": "C87_constant_refuted: the exception for the shared constants is needed."
  },
  {
   "property": "C88",
   "status": "proved",
   "theorems": [
    "C88_value",
    "C88_object",
    "C88_array",
    "C88_cached",
    "C88_reset",
    "C88_failed_load",
    "C88_number_refuted",
    "C88_leak_refuted"
   ],
   "note": "A numeric value from a cache or from Reset reads as what the old 8 bytes say (C88_cached, C88_reset give number_of); the two refutations exhibit the leftovers."
  },
  {
   "property": "C89",
   "status": "proved",
   "theorems": [
    "C89_mapping_refuted",
    "C89_list_refuted",
    "C89_load_mapping_refuted",
    "C89_load_list_refuted",
    "C89_lost"
   ],
   "note": "Refuted for every document: the theorems give the exact value that is loaded instead (loaded)."
  },
  {
   "property": "C90",
   "status": "proved",
   "theorems": [
    "C90_list_refuted",
    "C90_load_list_refuted",
    "C90_rejected",
    "C90_load_rejected",
    "C90_marker_refuted",
    "C90_load_marker_refuted",
    "C90_marker_mapping",
    "C90_load_marker_mapping",
    "C90_marker_list_refuted",
    "C90_marker_number_refuted",
    "C90_second",
    "C90_load_second"
   ],
   "note": "The refutations hold for every document of the stated form and give the value loaded; marker before a mapping, rejection of deeper lists and of later markers are proved. Later markers with LoadFromYaml: behind documents that load something (behind comments only, the marker is an item)."
  },
  {
   "property": "C91",
   "status": "proved",
   "theorems": [
    "C91_over_refuted",
    "C91_text_refuted",
    "C91_load_over_refuted",
    "C91_load_text_refuted",
    "C91_texts"
   ],
   "note": "Refuted for every entry of a top-level mapping; C91_texts is the rejecting case."
  },
  {
   "property": "C92",
   "status": "proved",
   "theorems": [
    "C92_struct",
    "C92_field",
    "C92_register",
    "C92_latest",
    "C92_others",
    "C92_plain",
    "C92_top_refuted",
    "C92_elements_refuted",
    "C92_method_refuted",
    "C92_pointer"
   ],
   "note": "Functions and methods are arbitrary; for the content theorems they answer and do nothing to memory but unescape raw strings. Slices of a registered type panic, the type of the variable itself is never looked up, and methods on field types work on a copy."
  },
  {
   "property": "C93",
   "status": "proved",
   "theorems": [
    "C93_scalars",
    "C93_text",
    "C93_bytes",
    "C93_room",
    "C93_room_refuted",
    "C93_answer_refuted",
    "C93_float"
   ],
   "note": "Integers arrive unchanged exactly when the type has room; the answer is true in all cases, so a truncated or missing value cannot be told from a good one."
  },
  {
   "property": "C94",
   "status": "proved",
   "theorems": [
    "C94_int",
    "C94_string",
    "C94_bool",
    "C94_double",
    "C94_time",
    "C94_float",
    "C94_found",
    "C94_default",
    "C94_key_types"
   ],
   "note": "Properties_Index.v; the elements of the receiver must be in use and different from it."
  },
  {
   "property": "C95",
   "status": "proved",
   "theorems": [
    "C95_set_value",
    "C95_set_key",
    "C95_set_index",
    "C95_set_value_method",
    "C95_nested_method",
    "C95_receiver",
    "C95_plain",
    "C95_hidden",
    "C95_pointer_field_refuted",
    "C95_kind_field_refuted",
    "C95_nil_refuted"
   ],
   "note": "Properties_Marshaler.v; the refuted theorems are equations for all methods that show where the method is not called, with a computed example; unexported fields that are not of a basic kind leave no trace."
  },
  {
   "property": "C96",
   "status": "proved",
   "theorems": [
    "C95_set_value",
    "C95_set_key",
    "C95_set_index",
    "C96_set_value",
    "C96_set_value_dx",
    "C96_pointer",
    "C96_pointer_index",
    "C96_copied",
    "C96_field_refuted"
   ],
   "note": "Properties_Marshaler.v; the content is in the C95 theorems (X: the values lent, dx: their contents), the C96 theorems say which entry is stored; C96_case shows later changes on both sides. DxValue structs copied from the receiver itself are excluded."
  },
  {
   "property": "C97",
   "status": "proved",
   "theorems": [
    "C97_missing",
    "C97_nil",
    "C97_found",
    "C97_effect",
    "C97_to_json",
    "C97_to_msgpack",
    "C97_default_refuted"
   ],
   "note": "Properties_Named.v; int is taken to have 64 bits; ToJson round trip for the texts of C18."
  },
  {
   "property": "C98",
   "status": "proved",
   "theorems": [
    "C98_load",
    "C98_conforming",
    "C98_new_refuted",
    "C98_object_refuted",
    "C98_mixed_refuted"
   ],
   "note": "Properties_BsonArr.v; values and texts of C11; assumes the external index parser inverts decimal printing."
  },
  {
   "property": "C99",
   "status": "proved",
   "theorems": [
    "C99_predicates",
    "C99_apart",
    "C99_decode",
    "C99_tell",
    "C99_time",
    "C99_extcode",
    "C99_encode",
    "C99_encode_none"
   ],
   "note": "Properties_Codes.v. Type byte 0xc1, which the format never uses, decodes to a nil value."
  }
 ]
}