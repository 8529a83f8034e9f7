{
 "claims": [
  {
   "property": "C01",
   "status": "proved",
   "theorems": [
    "C01_upper",
    "C01_lower",
    "C01_case_chars",
    "C01_upper_inplace"
   ],
   "note": ""
  },
  {
   "property": "C02",
   "status": "proved",
   "theorems": [
    "C02_reverse",
    "C02_reverse_twice",
    "C02_reverse_inplace"
   ],
   "note": ""
  },
  {
   "property": "C03",
   "status": "proved",
   "theorems": [
    "C03_strlen"
   ],
   "note": ""
  },
  {
   "property": "C04",
   "status": "proved",
   "theorems": [
    "C04_index",
    "C04_contains",
    "C04_index_any_of"
   ],
   "note": ""
  },
  {
   "property": "C05",
   "status": "proved",
   "theorems": [
    "C05_startswith",
    "C05_endswith"
   ],
   "note": ""
  },
  {
   "property": "C06",
   "status": "proved",
   "theorems": [
    "C06_removetrailing"
   ],
   "note": ""
  },
  {
   "property": "C07",
   "status": "proved",
   "theorems": [
    "C07_replace",
    "C07_replace_nothing",
    "C07_replaced_deterministic"
   ],
   "note": ""
  },
  {
   "property": "C08",
   "status": "proved",
   "theorems": [
    "C08_substr",
    "C08_char"
   ],
   "note": ""
  },
  {
   "property": "C09",
   "status": "proved",
   "theorems": [
    "C09_asof_groups",
    "C09_asof_groups_exist",
    "C09_grouped_kernels_deterministic",
    "C09_merge_indices",
    "C09_string_rows",
    "C09_disjoint_rows"
   ],
   "note": ""
  },
  {
   "property": "C10",
   "status": "partial",
   "theorems": [
    "C10_names_distinct",
    "C10_set_column",
    "C10_delete_column",
    "C10_column_count_partial",
    "C10_column_count_refuted"
   ],
   "note": "Distinctness, set and delete hold after every history. The column count holds for ordinary histories; C10_column_count_refuted shows st.shape = 5 (an attribute name of the class) stores an uncounted column."
  },
  {
   "property": "C11",
   "status": "proved",
   "theorems": [
    "C11_rename"
   ],
   "note": ""
  },
  {
   "property": "C12",
   "status": "proved",
   "theorems": [
    "C12_move_to_front",
    "C12_move_to_back"
   ],
   "note": ""
  },
  {
   "property": "C13",
   "status": "partial",
   "theorems": [
    "C13_col_map_partial",
    "C13_col_map_succeeds",
    "C13_col_map_refuted",
    "C13_col_map_atomic_refuted",
    "C13_col_map_attributes_refuted"
   ],
   "note": "Proved when every key is a column or some new name is a column. Refuted in general: {'a':'x','x':'y'} on a Struct with only column a renames a to y. Also refuted: atomicity on raise, attributes following the data round a cycle."
  },
  {
   "property": "C14",
   "status": "partial",
   "theorems": [
    "C14_col_str_replace_partial",
    "C14_col_str_replace_refuted"
   ],
   "note": "Proved when the replaced names stay distinct and no sort list is set; refuted otherwise."
  },
  {
   "property": "C15",
   "status": "partial",
   "theorems": [
    "C15_flatten_round_trip_partial",
    "C15_flat_names_distinct",
    "C15_name_with_separator_refuted",
    "C15_name_with_bang_refuted"
   ],
   "note": "Proved for every depth, shape and separator when names are non-empty, not '_root', and contain no character of the separator and no '!'. Refuted for names containing the separator (an item is overwritten) or '!' (a column is taken for a category array); both are accepted by Struct."
  },
  {
   "property": "C16",
   "status": "proved",
   "theorems": [
    "C16_fill_forward",
    "C16_fill_backward",
    "C16_limit_argument"
   ],
   "note": ""
  },
  {
   "property": "C17",
   "status": "partial",
   "theorems": [
    "C17_grouped_fill_forward",
    "C17_grouped_fill_backward",
    "C17_grouped_fill_inplace",
    "C17_filtered_rows_determined_refuted"
   ],
   "note": "Rows that belong to a group: proved for every schedule, in place or not. Refuted: a filtered row of the not-in-place result is an uninitialised cell."
  },
  {
   "property": "C18",
   "status": "partial",
   "theorems": [
    "C18_cummin_cummax_int",
    "C18_cummin_cummax_float",
    "C18_skipna_false_partial",
    "C18_skipna_false_refuted"
   ],
   "note": "skipna=True proved for integers and floats. skipna=False proved for floats, signed minimum, unsigned maximum; refuted for signed maximum and unsigned minimum (the result recovers after an invalid value)."
  },
  {
   "property": "C19",
   "status": "partial",
   "theorems": [
    "C19_work_split",
    "C19_grouped_sum",
    "C19_sum_of_valid_refuted",
    "C19_grouped_min_partial",
    "C19_min_refuted"
   ],
   "note": "Work split proved. Sum proved equal to the wrapped 64-bit sum of all elements of the bin; refuted: invalid integers are added too. Minimum proved for unsigned integers and for columns without invalid values; refuted for signed integers and floats ([5, invalid, 7] gives 7)."
  },
  {
   "property": "C20",
   "status": "partial",
   "theorems": [
    "C20_same_group_iff_both_agree",
    "C20_columns_show_both_keys",
    "C20_invalid_mode_shows_both_keys",
    "C20_filter_refuted"
   ],
   "note": "Agreement and shown values proved for every size and mode. Refuted for the filter argument: a removed row gets the code of the category ('Inv','Inv') in invalid mode, and the filter is ignored otherwise."
  },
  {
   "property": "C21",
   "status": "proved",
   "theorems": [
    "C21_hstack_shows_the_same",
    "C21_hstack_base0_shows_the_same"
   ],
   "note": "Proved for base 1 and base 0, for any number of categoricals. Hypothesis: the CRC tells the category arrays at hand apart (crc_match compares checksums only)."
  },
  {
   "property": "C22",
   "status": "partial",
   "theorems": [
    "C22_mapped_hstack_partial",
    "C22_mapped_hstack_refuted",
    "C22_shared_name_refuted"
   ],
   "note": "Proved for mappings that agree. Refuted: a code with two names shows the first name everywhere; a name with two codes loses one of them."
  },
  {
   "property": "C23",
   "status": "partial",
   "theorems": [
    "C23_regroup",
    "C23_regroup_of_rows_refuted"
   ],
   "note": "Proved for groupings that hold unique arrays (every Categorical). Refuted for groupings that hold row arrays (_grouping_dict): line 2106 takes row positions for categories and loses values."
  },
  {
   "property": "C24",
   "status": "partial",
   "theorems": [
    "C24_shrink_without_misc",
    "C24_shrink_with_misc_partial",
    "C24_shrink_with_misc_refuted"
   ],
   "note": "Proved without misc for every input. With misc proved when the last new category is an old one; refuted otherwise."
  },
  {
   "property": "C25",
   "status": "proved",
   "theorems": [
    "C25_dtype_holds_every_code",
    "C25_stacked_codes_fit"
   ],
   "note": "Counts up to 2^63 - 1."
  },
  {
   "property": "C26",
   "status": "proved",
   "theorems": [
    "C26_take_groups",
    "C26_extract_groups"
   ],
   "note": ""
  },
  {
   "property": "C27",
   "status": "partial",
   "theorems": [
    "C27_packing_partial",
    "C27_igroup_refuted"
   ],
   "note": "Packing with a filter, with mustrepack and for user functions is history-free. Refuted: igroup after a filtered call returns the filtered packing."
  },
  {
   "property": "C28",
   "status": "partial",
   "theorems": [
    "C28_apply_reduce_partial",
    "C28_apply_reduce_refuted"
   ],
   "note": "Proved when a dtype is given or the function always returns the same dtype. Refuted otherwise: the dtype of the first column's result is kept for the later columns and truncates them."
  },
  {
   "property": "C29",
   "status": "partial",
   "theorems": [
    "C29_scalar_compare_partial",
    "C29_equality",
    "C29_array_compare_partial",
    "C29_filtered_less_refuted",
    "C29_unordered_refuted"
   ],
   "note": "Sorted categories: all six operators proved for rows that are not filtered; ==, != proved for all rows and unsorted lists. Refuted: a filtered row satisfies < and <=; order comparisons on unsorted categories are neither rejected nor right."
  },
  {
   "property": "C30",
   "status": "partial",
   "theorems": [
    "C30_equals_list",
    "C30_isin_partial",
    "C30_filtered_isin_refuted",
    "C30_not_equal_list_refuted"
   ],
   "note": "c == [values] proved. Grouping.isin proved for unfiltered rows, refuted for filtered rows (index -1). Refuted: c != [values] with two values is True everywhere. The multi-value path of Categorical.isin ends in C++ (rc.IsMemberCategoricalFixup) and is not modelled."
  },
  {
   "property": "C31",
   "status": "partial",
   "theorems": [
    "C31_edits_partial",
    "C31_edit_raises_iff",
    "C31_remove_shows_stale_refuted",
    "C31_add_then_set_refuted",
    "C31_replace_longer_refuted"
   ],
   "note": "Proved over all edit histories for what comparisons see (category_array). Refuted for what c[i] and expand_array show: they read the Grouping's copy of the categories, which no edit updates."
  },
  {
   "property": "C32",
   "status": "partial",
   "theorems": [
    "C32_mapping_edits_partial",
    "C32_other_codes",
    "C32_replace_refuted",
    "C32_add_used_name_refuted"
   ],
   "note": "Proved for histories of additions of new names and removals. Refuted: mapping_replace, and mapping_add of a used name."
  },
  {
   "property": "C33",
   "status": "partial",
   "theorems": [
    "C33_setitem_partial",
    "C33_filtered_row_refuted",
    "C33_other_row_shows_refuted"
   ],
   "note": "Proved for what comparisons see, when the value is a category already or no row is filtered. Refuted: filtered rows take the new category; c[i] of other rows changes."
  },
  {
   "property": "C34",
   "status": "partial",
   "theorems": [
    "C34_same_categories_partial",
    "C34_different_categories_refuted",
    "C34_different_base_refuted"
   ],
   "note": "Proved for equal categories and base. Refuted otherwise: the target's own values are stored as codes."
  },
  {
   "property": "C35",
   "status": "partial",
   "theorems": [
    "C35_set_valid",
    "C35_set_valid_mapped_partial",
    "C35_source_changed_refuted"
   ],
   "note": "Proved for categoricals with category arrays, base 0 or 1. Mapped: result proved; refuted: the source's codes are overwritten."
  },
  {
   "property": "C36",
   "status": "partial",
   "theorems": [
    "C36_expand_array",
    "C36_expand_dict_partial",
    "C36_expand_dict_base0_refuted"
   ],
   "note": "expand_array proved for both bases. expand_dict proved for base 1, refuted for base 0."
  },
  {
   "property": "C37",
   "status": "proved",
   "theorems": [
    "C37_make_unique"
   ],
   "note": "Single key. The multi-key path is not modelled."
  },
  {
   "property": "C38",
   "status": "proved",
   "theorems": [
    "C38_align",
    "C38_align_base0"
   ],
   "note": "Proved for both bases. Hypothesis: the CRC tells the category arrays at hand apart."
  },
  {
   "property": "C39",
   "status": "proved",
   "theorems": [
    "C39_left_join"
   ],
   "note": ""
  },
  {
   "property": "C40",
   "status": "proved",
   "theorems": [
    "C40_inner_join"
   ],
   "note": ""
  },
  {
   "property": "C41",
   "status": "proved",
   "theorems": [
    "C41_right_join"
   ],
   "note": ""
  },
  {
   "property": "C42",
   "status": "partial",
   "theorems": [
    "C42_outer_join",
    "C42_right_only_count_refuted"
   ],
   "note": "Rows proved for every input. Refuted: right_only_rowcount is 0 for an outer merge with an empty left table although every row is right-only."
  },
  {
   "property": "C43",
   "status": "partial",
   "theorems": [
    "C43_keep_partial",
    "C43_lengths_refuted",
    "C43_outer_multikey_refuted"
   ],
   "note": "Proved for every how/keep combination except the ones excluded by 'supported'. Refuted there: left merge keeping one left row per key but all right rows when a Categorical left key has filtered rows (index arrays of different lengths); outer merge on several columns with keep=(None,'first') and a null right key (row lost, another duplicated)."
  },
  {
   "property": "C44",
   "status": "proved",
   "theorems": [
    "C44_validate"
   ],
   "note": ""
  },
  {
   "property": "C45",
   "status": "proved",
   "theorems": [
    "C45_distinct",
    "C45_complete",
    "C45_raises_only_on_clash",
    "C45_fresh_suffixes",
    "C45_clash_raises"
   ],
   "note": ""
  },
  {
   "property": "C46",
   "status": "partial",
   "theorems": [
    "C46_mismatched_keys_refuted"
   ],
   "note": "Refuted: the ValueError is constructed but not raised (rt_merge.py:2627-2630) and zip drops the surplus keys."
  },
  {
   "property": "C47",
   "status": "proved",
   "theorems": [
    "C47_lookup_columns",
    "C47_lookup_raises"
   ],
   "note": ""
  },
  {
   "property": "C48",
   "status": "proved",
   "theorems": [
    "C48_backward"
   ],
   "note": ""
  },
  {
   "property": "C49",
   "status": "proved",
   "theorems": [
    "C49_forward"
   ],
   "note": ""
  },
  {
   "property": "C50",
   "status": "proved",
   "theorems": [
    "C50_nearest"
   ],
   "note": ""
  },
  {
   "property": "C51",
   "status": "proved",
   "theorems": [
    "C51_grouped"
   ],
   "note": ""
  },
  {
   "property": "C52",
   "status": "partial",
   "theorems": [
    "C52_unsorted_left_partial",
    "C52_unsorted_right_refuted",
    "C52_unsorted_right_wrong_refuted",
    "C52_unsorted_left_empty_right_refuted",
    "C52_infinity_refuted"
   ],
   "note": "Unsorted left columns are always detected when the right table has rows; sorted null-free columns are never rejected (C48-C50). Refuted: unsorted tail of the right column, unsorted left with empty right, a float column starting with -inf is rejected."
  },
  {
   "property": "C53",
   "status": "proved",
   "theorems": [
    "C53_index_width"
   ],
   "note": ""
  },
  {
   "property": "C54",
   "status": "partial",
   "theorems": [
    "C54_duplicated_first_none",
    "C54_duplicated_last_partial",
    "C54_duplicated_last_refuted"
   ],
   "note": "'first' and False proved. 'last' proved for every key but the last unique one; refuted for that one: its packed position is used as a row number."
  },
  {
   "property": "C55",
   "status": "partial",
   "theorems": [
    "C55_jagged_dict_partial",
    "C55_combinations_spec",
    "C55_jagged_dict_refuted"
   ],
   "note": "Stacked form with non-empty lists proved against an independent cross product. Refuted: an empty list."
  },
  {
   "property": "C56",
   "status": "partial",
   "theorems": [
    "C56_melt",
    "C56_name_clash_refuted"
   ],
   "note": "Proved for distinct names. Refuted: an id column named like the variable or value column is lost."
  },
  {
   "property": "C57",
   "status": "proved",
   "theorems": [
    "C57_hstack",
    "C57_row_ranges"
   ],
   "note": "dtype promotion and Categorical columns not modelled."
  },
  {
   "property": "C58",
   "status": "proved",
   "theorems": [
    "C58_first_last",
    "C58_raise",
    "C58_heights"
   ],
   "note": ""
  },
  {
   "property": "C59",
   "status": "partial",
   "theorems": [
    "C59_iterrows_partial",
    "C59_iterrows_refuted"
   ],
   "note": "Each row is right when delivered and the dataset is untouched. Refuted: rows kept by the caller all show the last row."
  },
  {
   "property": "C60",
   "status": "partial",
   "theorems": [
    "C60_cache_transparent_partial",
    "C60_dtype_refuted",
    "C60_load_refuted"
   ],
   "note": "Transparent for every history if the crc separates the columns one dataset has had and loaded indexes are ascending sorts. Refuted: dtype is not in the cache key; the direction of a saved view is lost."
  },
  {
   "property": "C61",
   "status": "partial",
   "theorems": [
    "C61_slices",
    "C61_partition",
    "C61_labels_partial",
    "C61_stale_refuted",
    "C61_repeated_refuted"
   ],
   "note": "Slices, partitions and row labels proved for every list of datasets. Refuted: pcat keeps old names after set_pnames; repeated names given to the constructor."
  },
  {
   "property": "C62",
   "status": "partial",
   "theorems": [
    "C62_distinct",
    "C62_part",
    "C62_series_partial",
    "C62_single_partial",
    "C62_refuted"
   ],
   "note": "Distinctness and substring property proved for all file names; series of equal-width numbers named by the number. Refuted: numbers of different width, a single file beginning with its number, the colon. ASCII names only."
  },
  {
   "property": "C63",
   "status": "partial",
   "theorems": [
    "C63_fields_partial",
    "C63_weekday",
    "C63_yyyymmdd_partial",
    "C63_invalid",
    "C63_refuted"
   ],
   "note": "Fields agree with a day-by-day definition of the calendar for every valid date to the end of 2099, whatever the rest of the array; weekdays for all dates. Refuted from 2100 on (year table ends), for 1970-01-01 (taken for invalid) and before 1970."
  },
  {
   "property": "C64",
   "status": "partial",
   "theorems": [
    "C64_fields_partial",
    "C64_weekend_partial",
    "C64_day_of_month_partial",
    "C64_minute_partial",
    "C64_date_partial",
    "C64_refuted"
   ],
   "note": "All fields derived from the displayed local time for displayed dates 1970-2099; minutes for zones whole hours from UTC, date() for UTC and zones with a daylight-saving table. Refuted: day_of_month mixes local year and UTC time, minute in Kolkata, date() in Tokyo."
  },
  {
   "property": "C65",
   "status": "partial",
   "theorems": [
    "C65_rule_partial",
    "C65_fixed_zones",
    "C65_refuted"
   ],
   "note": "Displayed time, is_dst and offset follow independently written daylight-saving rules over the range of the tables, except at the exact switch instant (refuted there and after 2040). Dublin before 1981 and Sydney before 2008 are outside the specification (tables are wrong there)."
  },
  {
   "property": "C66",
   "status": "partial",
   "theorems": [
    "C66_round_trip",
    "C66_instant",
    "C66_within_hour",
    "C66_refuted"
   ],
   "note": "Displayed time read back is displayed the same, for all zones and instants (except exactly 1970-01-01 00:00 local); a uniquely displayed instant is recovered. Refuted for the first existing local time after the skipped hour."
  },
  {
   "property": "C67",
   "status": "partial",
   "theorems": [
    "C67_type",
    "C67_ismember_partial",
    "C67_compatible",
    "C67_pairs",
    "C67_refuted"
   ],
   "note": "Conversion proved exact for every pair of types with a lossless common type (all but 64-bit integers with floats or the other sign); ismember is then first-match. Refuted for the value-based fallback (all() for any()) and for the multi-key path's invalid values."
  },
  {
   "property": "C68",
   "status": "partial",
   "theorems": [
    "C68_two_dims_partial",
    "C68_getitem",
    "C68_refuted"
   ],
   "note": "Two-dimensional mbget and FastArray indexing for all indices whose product with the column count fits int64; the one-dimensional routine is C++ and is used by contract. Refuted for a plain index array holding the invalid value."
  },
  {
   "property": "C69",
   "status": "partial",
   "theorems": [
    "C69_char_stop_partial",
    "C69_char_stop_refuted"
   ],
   "note": "Proved for inclusive=False and for one-character stop strings; refuted for inclusive=True with a longer stop string (only its first character is kept)."
  },
  {
   "property": "C70",
   "status": "partial",
   "theorems": [
    "C70_tolerance_partial",
    "C70_far_apart_refuted"
   ],
   "note": "Refuted: the int64 subtraction wraps round, so keys 2^63 apart count as within any tolerance."
  },
  {
   "property": "C71",
   "status": "partial",
   "theorems": [
    "C71_merged_columns_partial"
   ],
   "note": "Missing only the outer multi-column case with keep on the right and null right keys, which is false (C43_outer_multikey_refuted). Key dtype checks and copy=False are not modelled."
  },
  {
   "property": "C72",
   "status": "proved",
   "theorems": [
    "C72_grouped_ema"
   ],
   "note": ""
  },
  {
   "property": "C73",
   "status": "proved",
   "theorems": [
    "C73_apply_nonreduce"
   ],
   "note": "One-column functions; all results of one dtype."
  },
  {
   "property": "C74",
   "status": "partial",
   "theorems": [
    "C74_count_transform_partial",
    "C74_count_transform_refuted"
   ],
   "note": "Proved for every row that belongs to a group. Refuted: a filtered row gets the count of the last group (index -1 wraps round)."
  },
  {
   "property": "C75",
   "status": "partial",
   "theorems": [
    "C75_two_categoricals_partial",
    "C75_less_refuted",
    "C75_base0_refuted"
   ],
   "note": "== and != proved for base 1. Refuted: base 0; <."
  },
  {
   "property": "C76",
   "status": "partial",
   "theorems": [
    "C76_copy_values_partial",
    "C76_copy_shares_categories_refuted",
    "C76_copy_base0_refuted",
    "C76_rows_after_replace_refuted",
    "C76_take_rows"
   ],
   "note": "Values of copies and selections proved. Refuted: copies share the category array; a copy of a base 0 categorical becomes base 1; a selection after category_replace is flagged sorted and == misses rows."
  },
  {
   "property": "C77",
   "status": "partial",
   "theorems": [
    "C77_unique_partial",
    "C77_unused_category_refuted"
   ],
   "note": "Proved with a filter or a dirty grouping. Refuted otherwise: unused categories are returned."
  },
  {
   "property": "C78",
   "status": "partial",
   "theorems": [
    "C78_map_partial",
    "C78_filtered_partial",
    "C78_invalid_ignored_refuted"
   ],
   "note": "Proved for unfiltered rows, and for filtered rows when some category is missing from the dictionary. Refuted: invalid is ignored when every category is mapped."
  },
  {
   "property": "C79",
   "status": "proved",
   "theorems": [
    "C79_nunique",
    "C79_one_hot"
   ],
   "note": ""
  },
  {
   "property": "C80",
   "status": "partial",
   "theorems": [
    "C80_shift_partial",
    "C80_shift_base0_refuted"
   ],
   "note": "Base 1 proved; base 0 refuted."
  },
  {
   "property": "C81",
   "status": "proved",
   "theorems": [
    "C81_from_rows"
   ],
   "note": ""
  },
  {
   "property": "C82",
   "status": "partial",
   "theorems": [
    "C82_tagged_rows_partial",
    "C82_tagged_rows_refuted"
   ],
   "note": "Rows with equal key sets proved. Refuted: key sets that differ but occur equally often are accepted."
  },
  {
   "property": "C83",
   "status": "partial",
   "theorems": [
    "C83_jagged_rows_partial",
    "C83_jagged_rows_refuted"
   ],
   "note": "Byte-string rows proved. Refuted: unicode rows, bytes fill, long fill."
  },
  {
   "property": "C84",
   "status": "proved",
   "theorems": [
    "C84_trim"
   ],
   "note": ""
  },
  {
   "property": "C85",
   "status": "partial",
   "theorems": [
    "C85_view_partial",
    "C85_alias_refuted",
    "C85_copy_refuted",
    "C85_raise_refuted"
   ],
   "note": "Proved for every history in which key lists in use are not shared or edited, keys are not repeated, copies take all or none of the keys, no str_replace on a view. Refuted outside: shared list, partial copy, raising copy and str_replace."
  },
  {
   "property": "C86",
   "status": "proved",
   "theorems": [
    "C86_sort_copy"
   ],
   "note": "lexsort by contract (stable permutation not needed)."
  },
  {
   "property": "C87",
   "status": "partial",
   "theorems": [
    "C87_add",
    "C87_sub",
    "C87_add_invalid",
    "C87_start_of_month_partial",
    "C87_start_of_week",
    "C87_range",
    "C87_range_step",
    "C87_range_days",
    "C87_refuted"
   ],
   "note": "Refuted only for start_of_month in January 1970; calendar to 2099."
  },
  {
   "property": "C88",
   "status": "partial",
   "theorems": [
    "C88_valid",
    "C88_left_invalid_partial",
    "C88_refuted"
   ],
   "note": "An invalid left operand is handled; refuted for an invalid right operand (valid > invalid is True)."
  },
  {
   "property": "C89",
   "status": "partial",
   "theorems": [
    "C89_bucket",
    "C89_regular",
    "C89_label",
    "C89_pre_post",
    "C89_invalid",
    "C89_refuted"
   ],
   "note": "All cut points and times; refuted for exact midnight with a pre bucket. The sorting of explicit bucket lists and the strftime of labels are not modelled."
  },
  {
   "property": "C90",
   "status": "partial",
   "theorems": [
    "C90_down",
    "C90_range_partial",
    "C90_refuted"
   ],
   "note": "Refuted when the array has invalid rows (range starts in 1970). Parsing of the rule text is not modelled; the step is in nanoseconds."
  },
  {
   "property": "C91",
   "status": "partial",
   "theorems": [
    "C91_zones",
    "C91_arrow_partial",
    "C91_refuted"
   ],
   "note": "Arrow round trip proved for times given in UTC, refuted for other zones (instants shift, nulls become valid, display zone lost)."
  },
  {
   "property": "C92",
   "status": "partial",
   "theorems": [
    "C92_fits_partial",
    "C92_least",
    "C92_refuted"
   ],
   "note": "Fit, least width, invalid and sign; refuted for prefer_signed without promote_invalid (128 gets int8). Float and non-integer scalars are not modelled."
  },
  {
   "property": "C93",
   "status": "partial",
   "theorems": [
    "C93_shift_diff",
    "C93_shift_back",
    "C93_diff_zero_refuted"
   ],
   "note": "All periods; diff(0) refuted for arrays of one element. Subtraction in the array's dtype is a parameter."
  },
  {
   "property": "C94",
   "status": "partial",
   "theorems": [
    "C94_self_compare_partial",
    "C94_zero",
    "C94_differs_refuted",
    "C94_transitions_refuted"
   ],
   "note": "Numeric arrays; refuted for strings (differs is inverted, the first rows count as transitions)."
  },
  {
   "property": "C95",
   "status": "proved",
   "theorems": [
    "C95_duplicated"
   ],
   "note": "All arrays; the Grouping is any numbering of the distinct values (its own correctness is C-level and taken by contract)."
  },
  {
   "property": "C96",
   "status": "proved",
   "theorems": [
    "C96_map",
    "C96_map_old",
    "C96_replacena"
   ],
   "note": "ismember by contract; keys without invalid values."
  },
  {
   "property": "C97",
   "status": "partial",
   "theorems": [
    "C97_mask_ops_partial",
    "C97_mask_errors",
    "C97_inplace_alias_refuted",
    "C97_inplace_error_refuted"
   ],
   "note": "Any operation and number of masks; refuted for the in-place form with the first mask repeated, and for errors after a partial update. Python bools among the arguments are not modelled."
  },
  {
   "property": "C98",
   "status": "partial",
   "theorems": [
    "C98_quantile_partial",
    "C98_quantile_unique",
    "C98_lower_higher_refuted"
   ],
   "note": "Exact arithmetic; 'lower' and 'higher' refuted between values (they raise). q outside [0,1] is not checked by the code and not modelled."
  },
  {
   "property": "C99",
   "status": "partial",
   "theorems": [
    "C99_quantile_partial",
    "C99_quantile_refuted",
    "C99_describe_partial",
    "C99_describe_nans_refuted"
   ],
   "note": "Refuted for quantile on signed integers with invalid values and for Nans of an all-invalid column. Mean and Std are not modelled; exact arithmetic."
  },
  {
   "property": "C100",
   "status": "proved",
   "theorems": [
    "C100_sample"
   ],
   "note": "All three kinds of filter, any generator and any sort."
  },
  {
   "property": "C101",
   "status": "partial",
   "theorems": [
    "C101_row_count",
    "C101_property_name_refuted"
   ],
   "note": "Any session; names assigned as attributes are valid column names. Refuted for attribute assignment to the name of a property (ds.size = ...). One element type, no 2-D columns."
  },
  {
   "property": "C102",
   "status": "partial",
   "theorems": [
    "C102_failure_atomic_partial",
    "C102_empty_dataset_refuted",
    "C102_several_columns_refuted"
   ],
   "note": "One-column operations on a dataset with a row count. Refuted for a dataset without columns and for assignments to several columns."
  },
  {
   "property": "C103",
   "status": "partial",
   "theorems": [
    "C103_assign_column",
    "C103_labels_and_locks",
    "C103_construct",
    "C103_delete_column",
    "C103_renamed_column_lost_refuted"
   ],
   "note": "Valid names. Refuted: two names renamed to the same column lose one."
  },
  {
   "property": "C104",
   "status": "proved",
   "theorems": [
    "C104_filter_inplace",
    "C104_select_rows",
    "C104_filter_copy"
   ],
   "note": "All selections; slices with non-negative bounds and step 1."
  },
  {
   "property": "C105",
   "status": "partial",
   "theorems": [
    "C105_set_cells_partial",
    "C105_set_scalar_partial",
    "C105_swap_refuted"
   ],
   "note": "Columns in separate storage. Refuted for a right-hand side of views of the same columns."
  },
  {
   "property": "C106",
   "status": "partial",
   "theorems": [
    "C106_putmask_partial",
    "C106_putmask_array_partial",
    "C106_shared_refuted"
   ],
   "note": "Columns in separate storage. Refuted for a right-hand side sharing columns."
  },
  {
   "property": "C107",
   "status": "partial",
   "theorems": [
    "C107_label_round_trip",
    "C107_deep_copy",
    "C107_shared_labels_refuted"
   ],
   "note": "Any session on either side. Refuted for row selections and shallow copies, which share label objects."
  },
  {
   "property": "C108",
   "status": "partial",
   "theorems": [
    "C108_compare",
    "C108_not_equal_missing_refuted"
   ],
   "note": "All operators; != on a column only one side has is False (refuted as negation of ==)."
  },
  {
   "property": "C109",
   "status": "partial",
   "theorems": [
    "C109_equals_partial",
    "C109_equals_names_partial",
    "C109_extra_nan_column_refuted",
    "C109_exact_refuted"
   ],
   "note": "Default arguments, no labels. Refuted: an extra all-NaN column is ignored; exact=True ignores names and broadcasts."
  },
  {
   "property": "C110",
   "status": "proved",
   "theorems": [
    "C110_drop_duplicates"
   ],
   "note": "Grouping by contract in first-occurrence order; footers and labels of the result not modelled."
  },
  {
   "property": "C111",
   "status": "proved",
   "theorems": [
    "C111_arithmetic"
   ],
   "note": "No fill value; in-place forms and summary columns not modelled."
  },
  {
   "property": "C112",
   "status": "partial",
   "theorems": [
    "C112_keys_partial",
    "C112_sort_after_filtered_refuted",
    "C112_isortrows_after_filtered_refuted"
   ],
   "note": "All uses that keep the sort setting; refuted for keys(sort=True) and isortrows on unsorted keys after the filtered entry was shown."
  },
  {
   "property": "C113",
   "status": "partial",
   "theorems": [
    "C113_reduce_result",
    "C113_count",
    "C113_apply_reduce_partial",
    "C113_apply_reduce_showfilter_refuted"
   ],
   "note": "Any history; C++ reductions by contract. apply_reduce with showfilter=True is refuted."
  },
  {
   "property": "C114",
   "status": "partial",
   "theorems": [
    "C114_transform_partial",
    "C114_apply_transform_partial",
    "C114_transform_once",
    "C114_flag_refuted",
    "C114_apply_reduce_refuted",
    "C114_base_refuted",
    "C114_filtered_row_refuted",
    "C114_showfilter_refuted"
   ],
   "note": "Refuted for filtered rows, base index 0 and enums, .transform and apply_reduce on sorted display, and showfilter with an ordered categorical; proved outside these cases."
  },
  {
   "property": "C115",
   "status": "partial",
   "theorems": [
    "C115_apply_reducing_partial",
    "C115_apply_same_length_partial",
    "C115_empty_group_refuted",
    "C115_single_rows_refuted"
   ],
   "note": "One data column; refuted for a sorted display with a group emptied by the filter and for groups of one row each."
  },
  {
   "property": "C116",
   "status": "partial",
   "theorems": [
    "C116_cells_partial",
    "C116_apply_reduce_partial",
    "C116_filtered_column_refuted",
    "C116_names_refuted"
   ],
   "note": "Any history, any filters; column names must be different. The Filtered column is refuted when the row keys are sorted for display."
  },
  {
   "property": "C117",
   "status": "proved",
   "theorems": [
    "C117_totals"
   ],
   "note": "badrows and badcols are not modelled."
  },
  {
   "property": "C118",
   "status": "partial",
   "theorems": [
    "C118_multipass_totals_partial",
    "C118_apply_reduce_totals_partial",
    "C118_sorted_refuted",
    "C118_unshown_rows_refuted",
    "C118_base0_refuted",
    "C118_apply_reduce_filter_refuted"
   ],
   "note": "Proved when keys are displayed in the order found, codes are not base 0 and every row that passes has both keys; each restriction is refuted without it."
  },
  {
   "property": "C119",
   "status": "partial",
   "theorems": [
    "C119_getitem_partial",
    "C119_sorted_refuted"
   ],
   "note": "Refuted when the keys are sorted for display."
  },
  {
   "property": "C120",
   "status": "proved",
   "theorems": [
    "C120_transform"
   ],
   "note": "One data column."
  },
  {
   "property": "C121",
   "status": "partial",
   "theorems": [
    "C121_count_partial",
    "C121_filtered_sorted_refuted"
   ],
   "note": "Refuted for showfilter=True with row keys sorted for display (totals)."
  },
  {
   "property": "C122",
   "status": "partial",
   "theorems": [
    "C122_pivot_partial",
    "C122_duplicates",
    "C122_filter_refuted",
    "C122_names_refuted"
   ],
   "note": "Proved for distinct column names and at most one row per cell, the filtered rows counting as one cell; both restrictions are refuted without them. Making the Categorical of the keys (C++) is a contract, met by an executable instance."
  },
  {
   "property": "C123",
   "status": "partial",
   "theorems": [
    "C123_pivot_melt_partial",
    "C123_blank_refuted"
   ],
   "note": "Needs what C122 needs; 0, empty and NaN values are dropped by trim (refuted otherwise)."
  },
  {
   "property": "C124",
   "status": "partial",
   "theorems": [
    "C124_transpose_partial",
    "C124_twice_partial",
    "C124_lost_refuted"
   ],
   "note": "Proved for distinct row names different from the header; refuted otherwise."
  },
  {
   "property": "C125",
   "status": "partial",
   "theorems": [
    "C125_columns",
    "C125_rows",
    "C125_axes_agree_partial",
    "C125_unchanged_partial",
    "C125_unchanged_refuted",
    "C125_whole_refuted"
   ],
   "note": "Refuted: axis=1 changes the dataset when columns have different types; axis=None with a column that is not computable reduces the columns' results."
  },
  {
   "property": "C126",
   "status": "partial",
   "theorems": [
    "C126_any_all_partial",
    "C126_other_refuted"
   ],
   "note": "Refuted for columns other than numbers and strings, which axis=1 ignores."
  },
  {
   "property": "C127",
   "status": "partial",
   "theorems": [
    "C127_one_hot_partial",
    "C127_names_refuted"
   ],
   "note": "Proved when the new names are distinct and not in use; refuted otherwise."
  },
  {
   "property": "C128",
   "status": "partial",
   "theorems": [
    "C128_answers_partial",
    "C128_exceptions_partial",
    "C128_read_back",
    "C128_remove_twice_refuted",
    "C128_label_stays_refuted"
   ],
   "note": "Proved for histories without shallow copies and sort_copy of Datasets with footers (see C129) and without repeated labels in footer_remove (refuted: KeyError after the values are gone). Removing a column leaves labels without values (stated as a finding)."
  },
  {
   "property": "C129",
   "status": "partial",
   "theorems": [
    "C129_independent_partial",
    "C129_copy_same",
    "C129_shallow_refuted",
    "C129_sort_copy_refuted"
   ],
   "note": "Proved for deep copies; refuted for shallow copies and selections, which share the attribute objects, and for sort_copy, which raises when there are footers."
  },
  {
   "property": "C130",
   "status": "partial",
   "theorems": [
    "C130_bins_partial",
    "C130_partition",
    "C130_order",
    "C130_repeated",
    "C130_labels",
    "C130_right_refuted",
    "C130_short_filter_refuted",
    "C130_two_equal_refuted"
   ],
   "note": "Exact rationals for floats. right=False is refuted (docstring's known issue), as are filters shorter than the array and two equal edges. The rounding and printing of edges are parameters; labels are proved different whenever some precision below 20 separates the edges. Integer and string inputs are not modelled."
  },
  {
   "property": "C131",
   "status": "partial",
   "theorems": [
    "C131_equal_width_partial"
   ],
   "note": "Missing: arrays with infinities (linspace of them is not modelled) and floating-point rounding of the edges."
  },
  {
   "property": "C132",
   "status": "partial",
   "theorems": [
    "C132_quantiles_partial",
    "C132_equal_sizes_partial",
    "C132_ties"
   ],
   "note": "The counts need different values; with ties bins are merged or refused (C132_ties). Exact rationals for floats; the lexsort is any function that sorts."
  },
  {
   "property": "C133",
   "status": "partial",
   "theorems": [
    "C133_arithmetic_partial",
    "C133_other_names_refuted",
    "C133_unlike_refuted"
   ],
   "note": "For tables of one shape; with different data column names or different numbers of totals the totals go wrong (refuted). Only column-wise operations between two Datasets; type promotion is not modelled."
  },
  {
   "property": "C134",
   "status": "partial",
   "theorems": [
    "C134_gen_partial",
    "C134_missing",
    "C134_unknown_margin_refuted"
   ],
   "note": "For tables with one summary column and one footer row, as Accum2 gives them, under names that are not columns. The text display is not modelled."
  },
  {
   "property": "C135",
   "status": "partial",
   "theorems": [
    "C135_ratio_partial"
   ],
   "note": "For aggregates that can be done in parts (sum, count, min, max); totals enabled; the names used must differ from the column labels. The replacement of invalid categories in the caller's Categorical is not modelled."
  },
  {
   "property": "C136",
   "status": "partial",
   "theorems": [
    "C136_ratiop_partial",
    "C136_all_blank_refuted"
   ],
   "note": "As C135. With remove_blanks and nothing but zeros the call fails (refuted)."
  },
  {
   "property": "C137",
   "status": "partial",
   "theorems": [
    "C137_cols_partial"
   ],
   "note": "As C135; all four lists of the same length (the code silently stops at the shortest)."
  },
  {
   "property": "C138",
   "status": "partial",
   "theorems": [
    "C138_trim",
    "C138_all_blank_refuted"
   ],
   "note": "The refuted case is a Dataset of nothing but blanks, which keeps its rows (the statement says so)."
  },
  {
   "property": "C139",
   "status": "partial",
   "theorems": [
    "C139_saved_struct_is_loaded_partial",
    "C139_saved_struct_is_loaded_exactly_partial",
    "C139_order_of_containers_is_kept_refuted",
    "C139_labels_are_kept_refuted",
    "C139_exclamation_mark_refuted",
    "C139_sds_ending_refuted"
   ],
   "note": "Missing: the order (and labels) of containers in a container-only Struct, the labels of the root, container names with ! or ending in .sds (all refuted). The file contents are an exact map from a file name to type, labels, metadata and named arrays: compression is by contract."
  },
  {
   "property": "C140",
   "status": "partial",
   "theorems": [
    "C140_missing_files_partial",
    "C140_stopped_save",
    "C140_missing_file_is_reported_refuted"
   ],
   "note": "Crash points between files; a file is written completely or not at all. With missing files the proved part leaves out None values, which stand for missing containers (refuted)."
  },
  {
   "property": "C141",
   "status": "partial",
   "theorems": [
    "C141_saved_over_partial",
    "C141_saved_over_covered_partial",
    "C141_old_contents_are_gone_refuted",
    "C141_new_data_is_loaded_refuted"
   ],
   "note": "For a resulting directory that is clean (readable files; only Struct files have files below them). Old items coming back, and hiding new data, is refuted."
  },
  {
   "property": "C142",
   "status": "partial",
   "theorems": [
    "C142_bulk_load_is_file_by_file_partial",
    "C142_bulk_load_is_file_by_file_refuted"
   ],
   "note": "On clean directories; an array file with files below it breaks it (refuted). With a root file see C143."
  },
  {
   "property": "C143",
   "status": "partial",
   "theorems": [
    "C143_data_comes_from_its_file_partial",
    "C143_data_comes_from_its_file_root_partial"
   ],
   "note": "On clean directories; the root file is the one of a saved Struct."
  },
  {
   "property": "C144",
   "status": "partial",
   "theorems": [
    "C144_dataset_saved_into_directory_partial",
    "C144_struct_saved_into_directory_refuted",
    "C144_dataset_over_array_refuted"
   ],
   "note": "Only Datasets, and not under the name of an array of the Struct or of a container with containers in it; a flat Struct or array saved into the directory is not loaded (refuted)."
  },
  {
   "property": "C145",
   "status": "partial",
   "theorems": [
    "C145_last_save_is_loaded_partial",
    "C145_last_save_is_loaded_refuted"
   ],
   "note": "For paths without a directory; after a nested save a flat save is not seen (refuted)."
  },
  {
   "property": "C146",
   "status": "partial",
   "theorems": [
    "C146_one_file_round_trip_partial",
    "C146_exclamation_mark_refuted"
   ],
   "note": "Names of array subclasses without ! (refuted otherwise); item contents are abstract."
  },
  {
   "property": "C147",
   "status": "partial",
   "theorems": [
    "C147_appended_sections",
    "C147_sections_have_their_names_refuted"
   ],
   "note": "Offsets of sections are distinct and in append order. That equal sections lose their names is refuted."
  },
  {
   "property": "C148",
   "status": "partial",
   "theorems": [
    "C148_flattened_directory_is_loaded_partial",
    "C148_flatten_keeps_files_refuted"
   ],
   "note": "For a base directory without other files; a base file dir.sds is overwritten (refuted)."
  },
  {
   "property": "C149",
   "status": "partial",
   "theorems": [
    "C149_integers_round_trip_partial",
    "C149_arrow_values_are_kept_partial",
    "C149_refused",
    "C149_zero_copy",
    "C149_arrow_values_are_kept_refuted"
   ],
   "note": "pyarrow functions by contract, value by value; memory sharing and writability are left out. A null beside the invalid value in a widened array becomes a number (refuted)."
  },
  {
   "property": "C150",
   "status": "partial",
   "theorems": [
    "C150_strings_round_trip_partial",
    "C150_arrow_strings_round_trip_partial",
    "C150_refused",
    "C150_fixed_bytes_round_trip_partial",
    "C150_fixed_bytes_are_kept_partial",
    "C150_fixed_bytes_slice_refuted",
    "C150_arrow_strings_round_trip_refuted"
   ],
   "note": "Strings ending in NUL are left out; null and empty are one in riptable, and a slice of a fixed_size_binary array is read as the whole array (refuted)."
  },
  {
   "property": "C151",
   "status": "partial",
   "theorems": [
    "C151_categorical_round_trip_partial",
    "C151_categorical_to_arrow",
    "C151_dictionary_array_partial",
    "C151_dictionary_array_refuted",
    "C151_longer_dictionary_refuted",
    "C151_ordered_flag_refuted",
    "C151_multikey_round_trip_refuted"
   ],
   "note": "Categories go through pyarrow by hypothesis (C149, C150 for their arrays). Refuted: nulls beside the last index of an unsigned type, index 127 with a longer dictionary, the ordered flag, several keys."
  },
  {
   "property": "C152",
   "status": "partial",
   "theorems": [
    "C152_mapping_round_trip_partial",
    "C152_mapping_round_trip_refuted"
   ],
   "note": "No code is the invalid value; unnamed codes get the empty name (refuted)."
  },
  {
   "property": "C153",
   "status": "partial",
   "theorems": [
    "C153_where_chooses_partial",
    "C153_where_of_arrays",
    "C153_where_refuses",
    "C153_where_of_one_partial",
    "C153_python_numbers_are_chosen_refuted",
    "C153_one_element_keeps_invalid_refuted",
    "C153_arrays_are_exact_refuted"
   ],
   "note": "rc.Where and numpy's promotion by contract; strings, Booleans and python floats are left out. Refuted: python integers equal to the invalid value of the smallest type, invalid integers under a condition of one element, 64-bit integers with floats."
  },
  {
   "property": "C154",
   "status": "partial",
   "theorems": [
    "C154_where_of_categoricals_partial",
    "C154_base_index_0_is_chosen_refuted",
    "C154_mapped_is_chosen_refuted",
    "C154_mapped_is_accepted_refuted",
    "C154_mapped_partial"
   ],
   "note": "Stacking as in C21. Refuted for base index 0 and for mapped Categoricals whose codes are not 1, 2, ..."
  },
  {
   "property": "C155",
   "status": "partial",
   "theorems": [
    "C155_assignment_partial",
    "C155_mask_assignment_partial",
    "C155_assignment_refuses",
    "C155_numbers_are_stored_or_refused_refuted"
   ],
   "note": "numpy's assignment by contract. Numbers too large for the type wrap around (refuted)."
  },
  {
   "property": "C156",
   "status": "partial",
   "theorems": [
    "C156_stacked_structs_partial",
    "C156_no_data_is_lost_refuted"
   ],
   "note": "Dataset.hstack is a parameter (C57); arrays are one-dimensional and stacking arrays of one class succeeds. Items of one name with different types lose data (refuted)."
  },
  {
   "property": "C157",
   "status": "partial",
   "theorems": [
    "C157_stacked_dictionary_partial",
    "C157_dictionary_is_stacked_refuted"
   ],
   "note": "Refuted for more than 127 arrays with fewer rows than that."
  },
  {
   "property": "C158",
   "status": "partial",
   "theorems": [
    "C158_equals_partial",
    "C158_equals_answers_partial",
    "C158_equals_symmetric",
    "C158_equals_itself_partial",
    "C158_equal_structs_show_the_same_refuted",
    "C158_struct_equals_itself_refuted",
    "C158_equals_answers_refuted"
   ],
   "note": "The CRC is a parameter, injective on the arrays compared. Refuted: arrays of other types or Categoricals with other categories but the same bytes; NaN scalars; a scalar against a Struct raises."
  },
  {
   "property": "C159",
   "status": "partial",
   "theorems": [
    "C159_comparison_partial",
    "C159_not_equal_means_different_refuted",
    "C159_equal_to_itself_refuted",
    "C159_equal_to_itself_partial",
    "C159_scalars_are_compared_refuted"
   ],
   "note": "Operators on elements and scalars are parameters; array against Struct is taken to raise. Refuted: != of arrays that differ in some elements, empty arrays, int against float scalars."
  },
  {
   "property": "C160",
   "status": "partial",
   "theorems": [
    "C160_count_uniques_partial",
    "C160_base0_refuted",
    "C160_mapping_refuted",
    "C160_showfilter_refuted"
   ],
   "note": "The grouping by pairs is by contract (the different pairs). Refuted: base index 0, Categoricals from a mapping, the filtered entry with filter= and showfilter=True."
  },
  {
   "property": "C161",
   "status": "partial",
   "theorems": [
    "C161_agg_partial"
   ],
   "note": "The functions and capitalize are parameters; the dictionary form of the argument; the single calculation is that of C113."
  },
  {
   "property": "C162",
   "status": "partial",
   "theorems": [
    "C162_quantile_partial",
    "C162_out_of_range",
    "C162_truncated_refuted"
   ],
   "note": "Values are integers (or NaN) and the result the pair of neighbours; C++ decodes the parameter by contract and computes positions exactly. Floats q are exact dyadics rounded to 53 bits. Proved: the answer belongs to a quantile at most 3e-9 away, and is the one asked for if no position is that close; int() truncation refuted otherwise."
  },
  {
   "property": "C163",
   "status": "partial",
   "theorems": [
    "C163_columns_partial",
    "C163_clash_refuted"
   ],
   "note": "Number formatting is a parameter without underscore and without the letter; footers left out. A key named like a quantile column raises (refuted)."
  },
  {
   "property": "C164",
   "status": "partial",
   "theorems": [
    "C164_rolling_partial"
   ],
   "note": "C++ decodes the parameter by contract; values are integers or NaN; q at most 2e-9 away."
  },
  {
   "property": "C165",
   "status": "partial",
   "theorems": [
    "C165_add_partial",
    "C165_commutes_partial",
    "C165_refused",
    "C165_one_element_refuted",
    "C165_filled_with_days_refuted",
    "C165_timespan_one_refuted"
   ],
   "note": "Arrays of at least two rows. Numbers do not wrap and floats are whole numbers up to 2^53. Refuted: one-element arrays lose invalids; invalid DateSpan + DateTimeNano/TimeSpan filled with the 32-bit invalid; TimeSpan + one invalid DateSpan."
  },
  {
   "property": "C166",
   "status": "partial",
   "theorems": [
    "C166_sub_partial",
    "C166_refused",
    "C166_days_as_nanos_refuted",
    "C166_zone_refuted"
   ],
   "note": "As C165; from_tz GMT for Date - DateTimeNano. Refuted: TimeSpan - DateSpan takes days as nanoseconds; Date - DateTimeNano and DateTimeNano - Date disagree in other zones."
  },
  {
   "property": "C167",
   "status": "partial",
   "theorems": [
    "C167_add_then_sub_partial",
    "C167_add_then_sub_point_partial",
    "C167_sub_then_add_partial"
   ],
   "note": "Corollaries of C165 and C166 under their conditions."
  },
  {
   "property": "C168",
   "status": "partial",
   "theorems": [
    "C168_in_place_partial",
    "C168_new_array",
    "C168_refused_partial",
    "C168_overwritten_refuted",
    "C168_one_element_refuted"
   ],
   "note": "DateSpan += TimeSpan (float into int) is left out. Refuted: Date += Date raises after the array was overwritten; += on one invalid element makes it valid."
  },
  {
   "property": "C169",
   "status": "partial",
   "theorems": [
    "C169_stacked_load_partial",
    "C169_first_class_wins_refuted",
    "C169_bang_in_name_refuted"
   ],
   "note": "Column names without '!', files that agree on the class of a column, base 0 Categoricals in every file; the stacking reader is a contract, the checksum of categories is assumed injective on the categories present. Enum Categoricals left out. Refuted: class data of the first file wins; '!' in a Categorical's name raises."
  },
  {
   "property": "C170",
   "status": "partial",
   "theorems": [
    "C170_bases_must_agree",
    "C170_mixed_classes_refuted"
   ],
   "note": "Proved when no file has the column with other class data. Refuted for a date column that is a Categorical in a later file: not refused."
  },
  {
   "property": "C171",
   "status": "partial",
   "theorems": [
    "C171_partitions_partial"
   ],
   "note": "As C169."
  },
  {
   "property": "C172",
   "status": "partial",
   "theorems": [
    "C172_filter_partial",
    "C172_order_lost_refuted",
    "C172_negative_refuted"
   ],
   "note": "Row numbers are not negative; order only for increasing numbers. Refuted: order and repetitions are lost; negative numbers count from the largest number."
  },
  {
   "property": "C173",
   "status": "partial",
   "theorems": [
    "C173_list_of_paths_partial",
    "C173_appended_refuted",
    "C173_positions_refuted"
   ],
   "note": "Except when exactly one path is a file that was appended to. Refuted there: the directories are dropped; missing paths shift results."
  },
  {
   "property": "C174",
   "status": "partial",
   "theorems": [
    "C174_left_right_partial",
    "C174_one_row_each"
   ],
   "note": "Keys are compared as stored: NaN keys and keys of different types on the two sides are not modelled; ismember and unique32 by contract."
  },
  {
   "property": "C175",
   "status": "partial",
   "theorems": [
    "C175_inner_partial",
    "C175_inner_duplicates_refuted"
   ],
   "note": "Holds for unique left keys; for others every row shows the first left row of its key (also proved). Refuted: with duplicate left keys a row does not show its own left row's values."
  },
  {
   "property": "C176",
   "status": "partial",
   "theorems": [
    "C176_outer_partial",
    "C176_raises"
   ],
   "note": "As C174."
  },
  {
   "property": "C177",
   "status": "partial",
   "theorems": [
    "C177_merge_asof_partial"
   ],
   "note": "Integer on columns without invalids or overflow; tolerance is ignored by the code; alignmk is a contract on sorted columns, argsort a contract."
  },
  {
   "property": "C178",
   "status": "proved",
   "theorems": [
    "C178_match_unique",
    "C178_same_result"
   ],
   "note": ""
  },
  {
   "property": "C179",
   "status": "proved",
   "theorems": [
    "C179_merge_asof_raises"
   ],
   "note": ""
  },
  {
   "property": "C180",
   "status": "partial",
   "theorems": [
    "C180_equal_tuple",
    "C180_wrong_length",
    "C180_order_partial",
    "C180_order_missing_refuted",
    "C180_not_ascii_refuted"
   ],
   "note": "Strings are plain character lists (no trailing NULs); comparing a string with a column of numbers is left to numpy. Refuted: order comparisons with a missing tuple, and == with a non-ascii string on byte columns raises."
  },
  {
   "property": "C181",
   "status": "partial",
   "theorems": [
    "C181_equal_tuples",
    "C181_not_equal_tuples_refuted",
    "C181_equal_nothing_refuted",
    "C181_isin_nothing",
    "C181_isin_tuple_refuted"
   ],
   "note": "Refuted: != with several tuples is True everywhere, isin of a list with one tuple raises."
  },
  {
   "property": "C182",
   "status": "partial",
   "theorems": [
    "C182_multikey_roundtrip",
    "C182_multikey_missing_refuted",
    "C182_single_roundtrip"
   ],
   "note": "Refuted for several keys: a missing tuple gives a negative bin instead of an exception."
  },
  {
   "property": "C183",
   "status": "proved",
   "theorems": [
    "C183_assign",
    "C183_rows_stay_valid",
    "C183_missing_raises"
   ],
   "note": "Codes are unbounded integers here (see C25 for the dtype)."
  },
  {
   "property": "C184",
   "status": "partial",
   "theorems": [
    "C184_multikey_partial",
    "C184_distinct_partial",
    "C184_collision_refuted",
    "C184_base0_refuted",
    "C184_single",
    "C184_mapped"
   ],
   "note": "astype('S') is any function giving texts. Refuted: base 0 multi-key, and texts that collide because the separator is inside a key."
  },
  {
   "property": "C185",
   "status": "partial",
   "theorems": [
    "C185_merge",
    "C185_rows_partial",
    "C185_two_names_refuted",
    "C185_compare"
   ],
   "note": "Refuted: a mapping that gives one code two names. Rows whose code had no name may get one."
  },
  {
   "property": "C186",
   "status": "partial",
   "theorems": [
    "C186_iter_groups_partial",
    "C186_after_filter",
    "C186_after_get_groupings_refuted"
   ],
   "note": "Refuted: after get_groupings(filter=...) the filtered rows stay missing."
  },
  {
   "property": "C187",
   "status": "partial",
   "theorems": [
    "C187_loop_partial",
    "C187_collected_last",
    "C187_collected_refuted"
   ],
   "note": "Refuted for collected pairs: one Dataset object is reused."
  },
  {
   "property": "C188",
   "status": "partial",
   "theorems": [
    "C188_fancy",
    "C188_bool_partial",
    "C188_unused_first_refuted",
    "C188_unused_last_refuted"
   ],
   "note": "Refuted for categories without a row."
  },
  {
   "property": "C189",
   "status": "partial",
   "theorems": [
    "C189_gbu",
    "C189_gb_partial",
    "C189_gb_exact",
    "C189_gb_refuted"
   ],
   "note": "from_category is the position among the categories (C182). Refuted for gb whose keys do not appear in sorted order."
  },
  {
   "property": "C190",
   "status": "partial",
   "theorems": [
    "C190_headers_partial",
    "C190_headers_refuted"
   ],
   "note": "Refuted for names such as a (twelve times) and a1 (twice)."
  },
  {
   "property": "C191",
   "status": "partial",
   "theorems": [
    "C191_call_columns",
    "C191_getitem_partial",
    "C191_getitem_refuted"
   ],
   "note": "Tuples of arrays, additional arguments and the apply family are not modelled. Refuted for GroupBys by an array."
  },
  {
   "property": "C192",
   "status": "partial",
   "theorems": [
    "C192_rows_partial",
    "C192_refuses",
    "C192_emptied",
    "C192_single",
    "C192_attribute_refuted",
    "C192_empty_member_refuted",
    "C192_in_place_refuted",
    "C192_several_refuted"
   ],
   "note": "Proved for members with rows, attribute assignment to a Multiset with members, no change of members in place; each restriction has a refutation."
  },
  {
   "property": "C193",
   "status": "partial",
   "theorems": [
    "C193_horizontal",
    "C193_returns_partial",
    "C193_unlabelled_refuted",
    "C193_collision_refuted",
    "C193_label_values_refuted"
   ],
   "note": "Soundness for all; returning is proved for Datasets at one depth with labels. Refuted: unlabelled, colliding intermediate names, label values are not compared."
  },
  {
   "property": "C194",
   "status": "partial",
   "theorems": [
    "C194_vertical",
    "C194_returns_partial",
    "C194_unlabelled_refuted"
   ],
   "note": "Soundness for all; returning needs labels or one level. decode undoes the encoding of names (of_name, decode are parameters)."
  },
  {
   "property": "C195",
   "status": "partial",
   "theorems": [
    "C195_headers",
    "C195_one",
    "C195_nested_refuted",
    "C195_copy_refuted"
   ],
   "note": "Refuted for nested Multisets and for copies."
  },
  {
   "property": "C196",
   "status": "proved",
   "theorems": [
    "C196_column",
    "C196_rows_columns",
    "C196_multiget"
   ],
   "note": "ms[rows] with masks and slices is reduced to lists of row numbers in range."
  },
  {
   "property": "C197",
   "status": "partial",
   "theorems": [
    "C197_verdict_partial",
    "C197_returns",
    "C197_metadata_partial",
    "C197_info_undescribed",
    "C197_info",
    "C197_only_last_refuted",
    "C197_empty_schema_refuted"
   ],
   "note": "Proved for schemas without empty dictionaries. Refuted: only the last extra and the last missing column are reported; empty schemas count as missing."
  },
  {
   "property": "C198",
   "status": "partial",
   "theorems": [
    "C198_rows",
    "C198_positions",
    "C198_returns_partial",
    "C198_sorted_refuted"
   ],
   "note": "Formatting of values is a parameter. Returning is proved for unsorted Datasets; refuted for sorted ones whose sorted columns do not fit."
  },
  {
   "property": "C199",
   "status": "partial",
   "theorems": [
    "C199_columns_partial",
    "C199_once_partial",
    "C199_no_dots_refuted",
    "C199_twice_refuted",
    "C199_hash_refuted"
   ],
   "note": "Restricted to Datasets without an unlabelled column '#'. Refuted: labels wider than the console hide all columns without dots; a sorted label is shown twice; a column '#' is never shown."
  },
  {
   "property": "C200",
   "status": "partial",
   "theorems": [
    "C200_footers",
    "C200_col_all_refuted"
   ],
   "note": "For the single table; refuted for COL_ALL, where footers are dropped."
  },
  {
   "property": "C201",
   "status": "partial",
   "theorems": [
    "C201_lines",
    "C201_dots_refuted",
    "C201_labels_refuted"
   ],
   "note": "GB_PREFIX is not empty. The bound on the console is refuted when dots or several labels are shown; the general bound is proved."
  },
  {
   "property": "C202",
   "status": "partial",
   "theorems": [
    "C202_sets",
    "C202_empty_refuted"
   ],
   "note": "Refuted: an empty first table."
  },
  {
   "property": "C203",
   "status": "partial",
   "theorems": [
    "C203_headings_partial",
    "C203_raises_refuted"
   ],
   "note": "Proved when a column is shown after the dots; otherwise it raises, proved for every such case."
  },
  {
   "property": "C204",
   "status": "partial",
   "theorems": [
    "C204_transposed_partial",
    "C204_sorted_refuted",
    "C204_summary_refuted"
   ],
   "note": "For unsorted Datasets without summary columns; both restrictions have a refutation."
  },
  {
   "property": "C205",
   "status": "partial",
   "theorems": [
    "C205_read",
    "C205_rounded_refuted"
   ],
   "note": "For keys not written '.'; refuted that equal texts are equal keys."
  },
  {
   "property": "C206",
   "status": "partial",
   "theorems": [
    "C206_arrays_partial",
    "C206_uint64_refuted"
   ],
   "note": "Refuted for uint64 beside signed arrays. Elements that are the invalid of their type are not covered."
  },
  {
   "property": "C207",
   "status": "partial",
   "theorems": [
    "C207_number_partial",
    "C207_negative_refuted",
    "C207_large_refuted"
   ],
   "note": "Integers of 64 bits of the same sign; refuted for negative numbers beside unsigned arrays and numbers over 64 bits. Elements that are the invalid of their type are not covered."
  },
  {
   "property": "C208",
   "status": "partial",
   "theorems": [
    "C208_exact_partial",
    "C208_commutes",
    "C208_unsigned_refuted"
   ],
   "note": "Commuting is proved in general. Exactness without uint64 beside signed arrays, refuted for negative numbers beside unsigned arrays."
  },
  {
   "property": "C209",
   "status": "partial",
   "theorems": [
    "C209_out_partial",
    "C209_narrow_refuted",
    "C209_invert",
    "C209_invert_refuted"
   ],
   "note": "out= of a type that holds both operands; refuted otherwise. ~ without out=; refuted with it."
  },
  {
   "property": "C210",
   "status": "partial",
   "theorems": [
    "C210_reduce_partial",
    "C210_initial_refuted",
    "C210_out_refuted",
    "C210_dtype_refuted"
   ],
   "note": "Without initial=, dtype= and out=; each is refuted."
  },
  {
   "property": "C211",
   "status": "partial",
   "theorems": [
    "C211_strings_partial",
    "C211_bytes_refuted"
   ],
   "note": "Texts in ASCII; refuted for bytes."
  },
  {
   "property": "C212",
   "status": "partial",
   "theorems": [
    "C212_columns_partial",
    "C212_view_refuted",
    "C212_footers_refuted"
   ],
   "note": "Columns, labels and keys of the view are proved; the order of the view and the footers are refuted."
  },
  {
   "property": "C213",
   "status": "partial",
   "theorems": [
    "C213_keys",
    "C213_mapping_partial",
    "C213_two_codes_refuted",
    "C213_two_names_refuted"
   ],
   "note": "Keys proved in general; mappings with distinct names and codes, refuted for others."
  },
  {
   "property": "C214",
   "status": "partial",
   "theorems": [
    "C214_axis_partial",
    "C214_dtype_partial",
    "C214_axis_0_refuted",
    "C214_invalid_refuted"
   ],
   "note": "Proved for the function of a list of elements as a parameter, except axis=0 of two dimensions and invalid integers, which are refuted."
  },
  {
   "property": "C215",
   "status": "partial",
   "theorems": [
    "C215_filter_partial",
    "C215_length"
   ],
   "note": "Exact arithmetic on rational numbers with NaN; rounding of floats is not modelled."
  },
  {
   "property": "C216",
   "status": "partial",
   "theorems": [
    "C216_function_partial",
    "C216_list_refuted",
    "C216_ddof_refuted",
    "C216_position_refuted"
   ],
   "note": "Keywords proved; refuted for lists and for the axis as second argument."
  },
  {
   "property": "C217",
   "status": "partial",
   "theorems": [
    "C217_masks",
    "C217_inplace_partial",
    "C217_twice_refuted",
    "C217_same_refuted"
   ],
   "note": "Arrays as references into a memory, so the same array may occur twice; broadcasting an array of length 1 is not modelled. Refuted for an array given again in place, for one argument, and for errors in place."
  },
  {
   "property": "C218",
   "status": "partial",
   "theorems": [
    "C218_items_partial",
    "C218_like_partial",
    "C218_like_refuted",
    "C218_array_refuted",
    "C218_keywords"
   ],
   "note": "items as one value or a list proved; arrays of items, like= and regex= with str on bytes refuted."
  },
  {
   "property": "C219",
   "status": "partial",
   "theorems": [
    "C219_rows",
    "C219_iter_partial",
    "C219_iter_ends",
    "C219_iter_refuted"
   ],
   "note": "Rows kept for later are refuted for as_type='iter'."
  },
  {
   "property": "C220",
   "status": "partial",
   "theorems": [
    "C220_totals_partial",
    "C220_y_partial",
    "C220_stale_refuted",
    "C220_names_refuted"
   ],
   "note": "Columns of integers; proved for the first call on a Dataset; refuted for later calls."
  },
  {
   "property": "C221",
   "status": "proved",
   "theorems": [
    "C221_row_masks"
   ],
   "note": ""
  },
  {
   "property": "C222",
   "status": "partial",
   "theorems": [
    "C222_outliers_partial"
   ],
   "note": "Columns without any number, and more than one column kept, are not modelled."
  },
  {
   "property": "C223",
   "status": "partial",
   "theorems": [
    "C223_onepass",
    "C223_multipass_partial",
    "C223_bad_row_refuted",
    "C223_filtered_refuted",
    "C223_base0_refuted"
   ],
   "note": "Functions of one pass proved for any function that may be computed from parts; functions of several passes without the filtered, badcalc=True and numbers only for base index 1. Refuted: the two kinds differ on bad rows, the column Filtered, base index 0."
  },
  {
   "property": "C224",
   "status": "partial",
   "theorems": [
    "C224_marks_partial",
    "C224_rows_refuted",
    "C224_cols_refuted"
   ],
   "note": "Refuted for numpy arrays with showfilter=True; the order of sorted groups is not modelled."
  },
  {
   "property": "C225",
   "status": "partial",
   "theorems": [
    "C225_extract_partial",
    "C225_raises",
    "C225_str_refuted",
    "C225_optional_refuted",
    "C225_names_refuted",
    "C225_mapped_partial",
    "C225_empty_refuted"
   ],
   "note": "Proved for expressions whose groups take part in every match, with distinct names, and with a group if the strings are str. Refuted: groups that take no part give None, str without groups raises, equal names lose a group, empty arrays raise in regex_match and regex_replace. Python's re is a parameter."
  },
  {
   "property": "C226",
   "status": "partial",
   "theorems": [
    "C226_matrix",
    "C226_bool_refuted"
   ],
   "note": "As stated; bools are encoded, not kept (finding). Rounding of large integers to floats is not modelled."
  },
  {
   "property": "C227",
   "status": "partial",
   "theorems": [
    "C227_isnan_partial",
    "C227_isfiltered",
    "C227_bytes_refuted"
   ],
   "note": "One key and mappings; several keys and the change of the invalid category of numbers in the constructor are not modelled. Refuted: invalid_set with bytes."
  },
  {
   "property": "C228",
   "status": "partial",
   "theorems": [
    "C228_history",
    "C228_elements_partial",
    "C228_take_refuted",
    "C228_copy_refuted",
    "C228_shift_refuted"
   ],
   "note": "Independence and histories proved; refuted: indexing, copy and shift_cat forget the invalid category, shift_cat the name of filtered elements."
  },
  {
   "property": "C229",
   "status": "partial",
   "theorems": [
    "C229_sizes_partial",
    "C229_order",
    "C229_categories_refuted",
    "C229_codes_refuted",
    "C229_view_refuted",
    "C229_shared_refuted",
    "C229_cycle_refuted"
   ],
   "note": "Exact sizes proved, the physical size where columns of the same memory are counted with the same size. Refuted: shared category arrays, shared codes, views and shared Structs in the logical size, Structs inside themselves."
  },
  {
   "property": "C230",
   "status": "proved",
   "theorems": [
    "C230_search",
    "C230_flat",
    "C230_any_all"
   ],
   "note": "Structs as finite trees (a Struct inside itself makes them recurse until Python stops); an element is the truth value Python gives it; a path is the list of its keys."
  },
  {
   "property": "C231",
   "status": "partial",
   "theorems": [
    "C231_all",
    "C231_listed",
    "C231_errors_partial",
    "C231_atomic_refuted"
   ],
   "note": "Structs as finite trees. Names that are neither columns nor attributes raise before any change; refuted: names of methods raise half-way."
  },
  {
   "property": "C232",
   "status": "partial",
   "theorems": [
    "C232_struct_partial",
    "C232_collision_refuted",
    "C232_multi_refuted",
    "C232_matlab_partial",
    "C232_order_refuted",
    "C232_method_refuted"
   ],
   "note": "The constructor of the Matlab Categorical is a parameter. Refuted: reserved names that collide once capitalised, several keys left out silently, names of xtra that are columns of codes, names of methods."
  },
  {
   "property": "C233",
   "status": "partial",
   "theorems": [
    "C233_clock_partial",
    "C233_injective_partial",
    "C233_precision_refuted",
    "C233_long_refuted"
   ],
   "note": "Below 2^62 nanoseconds that are whole; the division of floats is modelled to the bit. Texts are modelled by the numbers in them. Refuted: fewer than nine decimals show the wrong digits; longer TimeSpans can be shown one second too long."
  },
  {
   "property": "C234",
   "status": "partial",
   "theorems": [
    "C234_hhmmss_partial",
    "C234_negative_refuted",
    "C234_unit_partial",
    "C234_round_refuted"
   ],
   "note": "hhmmss proved for TimeSpans that are not negative. Refuted: negative ones; units chosen before rounding (60.000s). The decimals of the unit are those of the exact quotient."
  },
  {
   "property": "C235",
   "status": "partial",
   "theorems": [
    "C235_one_partial",
    "C235_many_partial",
    "C235_raises",
    "C235_lambdas_refuted",
    "C235_method_refuted"
   ],
   "note": "Proved for functions with distinct capitalized names that are not names of methods of Dataset. Refuted: of two lambdas one result is left; with check_op a function with the name of a method is ignored. Names are ASCII; the new columns have the old length."
  },
  {
   "property": "C236",
   "status": "partial",
   "theorems": [
    "C236_cells_partial",
    "C236_sums_partial",
    "C236_name_refuted"
   ],
   "note": "Numbers are rationals (no rounding, no division by zero); the aggregation, label columns and remove_blanks are not modelled. Refuted: a category called Total is lost with include_total."
  },
  {
   "property": "C237",
   "status": "partial",
   "theorems": [
    "C237_columns_partial",
    "C237_defaults_partial",
    "C237_short_refuted",
    "C237_letter_refuted"
   ],
   "note": "The aggregation is a parameter; remove_blanks is not modelled; names are distinct and not those of labels. Refuted: values without a name or filter are left out silently; the letter may be empty or pP."
  },
  {
   "property": "C238",
   "status": "partial",
   "theorems": [
    "C238_one",
    "C238_many_partial",
    "C238_everything",
    "C238_raises",
    "C238_numbers_refuted"
   ],
   "note": "One column, lists of names and [:] proved. Refuted: lists of numbers, masks and slices raise TypeError. Sorted Datasets are not modelled."
  },
  {
   "property": "C239",
   "status": "partial",
   "theorems": [
    "C239_truth_partial",
    "C239_dict_refuted"
   ],
   "note": "Proved without dictionaries in the Struct. Refuted: of dictionaries the keys are tested. Iterators, which any consumes, are not modelled."
  },
  {
   "property": "C240",
   "status": "proved",
   "theorems": [
    "C240_inplace",
    "C240_lookup"
   ],
   "note": "The checks of suffix, suffixes and columns_left against inplace, copy=False and the checks of the dtypes of the keys are not modelled."
  },
  {
   "property": "C241",
   "status": "partial",
   "theorems": [
    "C241_nunique_partial",
    "C241_bools_refuted",
    "C241_bools",
    "C241_dates_refuted"
   ],
   "note": "Proved for integers, floats and strings. Refuted: False is not counted, the missing date is. The grouping behind unique is in C++ and taken to give the distinct values sorted, NaN once and last; complex numbers and objects are not modelled."
  },
  {
   "property": "C242",
   "status": "partial",
   "theorems": [
    "C242_bitcount_partial",
    "C242_negative_refuted"
   ],
   "note": "Proved for integers that are not negative. Refuted: of a negative scalar the bits of the absolute value are counted. The count over arrays is in C++ and taken to be that of two's complement."
  },
  {
   "property": "C243",
   "status": "partial",
   "theorems": [
    "C243_asks_partial",
    "C243_structs_partial",
    "C243_directories",
    "C243_overwrite",
    "C243_enter_refuted",
    "C243_capitals_refuted",
    "C243_separator_refuted"
   ],
   "note": "Proved for directories; for files when no answer is empty, Yy or Nn, names have no separator and .sds no capitals. Refuted otherwise: just Enter means yes, and x.SDS or the name a/b is looked for elsewhere than written. Shared memory, append, onefile and dots in paths are not modelled."
  },
  {
   "property": "C244",
   "status": "partial",
   "theorems": [
    "C244_names_partial",
    "C244_structs_refuted",
    "C244_arrays_refuted"
   ],
   "note": "Proved for Datasets whose names do not end with .sds. Refuted for Structs without nested containers, whose name is ignored, and for arrays named a/b and a!b."
  },
  {
   "property": "C245",
   "status": "partial",
   "theorems": [
    "C245_search",
    "C245_flat",
    "C245_dots_refuted"
   ],
   "note": "Proved for the paths as lists of names; refuted: a name with a dot gives the dotted path of another item. The regular expression is a parameter; Structs that contain themselves are not modelled."
  },
  {
   "property": "C246",
   "status": "partial",
   "theorems": [
    "C246_inverse_partial",
    "C246_raises",
    "C246_codes_refuted"
   ],
   "note": "Proved for different names and codes, and when it raises. Refuted: names with one code are accepted with a warning, and only the last comes back."
  },
  {
   "property": "C247",
   "status": "partial",
   "theorems": [
    "C247_keys_partial",
    "C247_lost_refuted"
   ],
   "note": "Proved unless a key has the numbered name of another; refuted then: a key is lost."
  },
  {
   "property": "C248",
   "status": "partial",
   "theorems": [
    "C248_columns_partial",
    "C248_lost_refuted",
    "C248_empty_refuted"
   ],
   "note": "Proved without names that begin with an underscore or are attributes of Datasets; no keyword ends with an underscore. Refuted otherwise: columns are lost, and names of underscores become empty."
  },
  {
   "property": "C249",
   "status": "partial",
   "theorems": [
    "C249_table_partial",
    "C249_tagged_partial",
    "C249_empty_line_refuted",
    "C249_twice_refuted",
    "C249_no_rows_refuted"
   ],
   "note": "Proved for distinct names that are neither keywords nor attributes of Datasets; a name with a leading underscore is an error. Refuted otherwise: of equal names, or of sum and Sum, one column is kept, and an empty line, or a file without rows, is an error in some versions only. Version 4 (pandas) is not modelled."
  },
  {
   "property": "C250",
   "status": "partial",
   "theorems": [
    "C250_roundtrip_partial",
    "C250_order_refuted",
    "C250_names_refuted"
   ],
   "note": "Proved for column names without the text .npy and without path separators, up to the order of the columns. Refuted: the order is that of the listing, and names with .npy lose columns or are changed."
  },
  {
   "property": "C251",
   "status": "partial",
   "theorems": [
    "C251_rows_partial"
   ],
   "note": "Proved for Datasets with a column of the kind asked for. Not modelled: the conversion of the columns to one dtype, filters, and the compiled grouping itself."
  }
 ]
}