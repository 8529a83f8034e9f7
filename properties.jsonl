{"id": "C01", "title": "String case conversion", "statement": "FAString.upper / FAString.lower applied to any byte or unicode string array changes exactly the ASCII letters of the other case, leaves every other character and every string length unchanged, and is idempotent; upper after lower equals upper.", "quantifier": "every array of fixed-width strings (any width, any number of rows, any code points)", "why_tests_cant": "unbounded widths, row counts and code points; a test samples a few strings", "anchors": ["riptable/rt_str.py:_nb_upper", "riptable/rt_str.py:_nb_lower", "riptable/rt_str.py:FAString.upper", "riptable/rt_str.py:FAString.lower"]}
{"id": "C02", "title": "String reverse", "statement": "FAString.reverse reverses the visible (un-padded) text of every row and keeps the padding at the end; applying it twice gives back the original array.", "quantifier": "every array of fixed-width strings, with any padding, whose padding is only trailing", "why_tests_cant": "involution over all strings and all paddings is a universally quantified law", "anchors": ["riptable/rt_str.py:_nb_reverse", "riptable/rt_str.py:_nb_reverse_inplace"]}
{"id": "C03", "title": "String length", "statement": "FAString.strlen returns, for every row, the number of characters that precede the padding.", "quantifier": "every fixed-width string row", "why_tests_cant": "all widths and paddings", "anchors": ["riptable/rt_str.py:_nb_strlen", "riptable/rt_str.py:FAString.strlen"]}
{"id": "C04", "title": "Substring search", "statement": "FAString.index (strpos) returns the smallest position at which the pattern occurs in the row and -1 exactly when it does not occur; contains is true exactly when it occurs; index_any_of returns the first position whose character is in the given set and -1 when there is none.", "quantifier": "every row and every non-empty pattern / character set of any length", "why_tests_cant": "first-occurrence over all texts and patterns, including patterns longer than the row", "anchors": ["riptable/rt_str.py:_nb_index", "riptable/rt_str.py:_nb_contains", "riptable/rt_str.py:_nb_index_any_of"]}
{"id": "C05", "title": "Prefix and suffix tests", "statement": "FAString.startswith / endswith are true exactly for the rows whose visible text has the given prefix / suffix.", "quantifier": "every row and every pattern of any length", "why_tests_cant": "all lengths including pattern longer than text", "anchors": ["riptable/rt_str.py:_nb_startswith", "riptable/rt_str.py:_nb_endswith"]}
{"id": "C06", "title": "Remove trailing character", "statement": "FAString.removetrailing deletes exactly the maximal run of the given character at the end of the visible text and nothing else.", "quantifier": "every row, every character", "why_tests_cant": "maximality over all texts", "anchors": ["riptable/rt_str.py:_nb_removetrailing"]}
{"id": "C07", "title": "Replace is leftmost non-overlapping replacement", "statement": "FAString.replace(old,new) yields, for every row, exactly what Python's str.replace yields: occurrences are found left to right, never overlap, everything between them is copied verbatim.", "quantifier": "every row, every non-empty old, every new (shorter, equal or longer)", "why_tests_cant": "all overlaps and lengths; the output buffer size is computed separately from the writing loop", "anchors": ["riptable/rt_str.py:_nb_find", "riptable/rt_str.py:_nb_replace", "riptable/rt_str.py:FAString.replace"]}
{"id": "C08", "title": "substr slicing agrees with Python slicing", "statement": "FAString.substr(start, stop) / .substr[start:stop] with scalar or per-row bounds (positive, negative, missing) returns for each row the Python slice row[start:stop].", "quantifier": "every row, every pair of integer bounds", "why_tests_cant": "unbounded bounds, negative bounds, bounds past the end", "anchors": ["riptable/rt_str.py:FAString._nb_substr", "riptable/rt_str.py:FAString._substr", "riptable/rt_str.py:_SubStrAccessor"]}
{"id": "C09", "title": "Data-parallel kernels do not depend on scheduling", "statement": "The result of the multithreaded loops (numba prange) that back string operations, group fills, grouped as-of merges and join index construction does not depend on the order in which loop iterations run.", "quantifier": "every input and every permutation / interleaving of the parallel loop iterations", "why_tests_cant": "schedules cannot be enumerated by running the code", "anchors": ["riptable/rt_str.py", "riptable/rt_merge.py:_fused_arange_repeat", "riptable/rt_merge.py:_fancy_index_fetch_keymap", "riptable/rt_merge_asof.py", "riptable/rt_groupbynumba.py"]}
{"id": "C10", "title": "Column dictionary invariants", "statement": "After any sequence of column additions, overwrites, deletions, renames, moves, prefix/suffix additions, the column names of a Struct/Dataset are pairwise distinct, every column can be retrieved by its name, overwriting keeps a column's position, and column count equals the number of names.", "quantifier": "every history of column operations of any length", "why_tests_cant": "histories are unbounded", "anchors": ["riptable/rt_itemcontainer.py:ItemContainer", "riptable/rt_struct.py:Struct._addnewitem", "riptable/rt_struct.py:Struct._deleteitem"]}
{"id": "C11", "title": "Renaming a column", "statement": "col_rename(old,new) keeps the column's position, value and attributes, changes nothing else, and raises (leaving everything unchanged) when old is missing or new already exists.", "quantifier": "every Struct and every pair of names", "why_tests_cant": "all containers", "anchors": ["riptable/rt_itemcontainer.py:ItemContainer.item_rename", "riptable/rt_struct.py:Struct.col_rename"]}
{"id": "C12", "title": "Moving columns", "statement": "col_move_to_front / col_move_to_back permute the columns: the moved ones come first/last in the requested order, the others keep their relative order, and no value or attribute changes.", "quantifier": "every container and every list of names", "why_tests_cant": "all containers and lists incl. duplicates", "anchors": ["riptable/rt_itemcontainer.py:ItemContainer._get_move_cols", "riptable/rt_itemcontainer.py:ItemContainer.item_move_to_front", "riptable/rt_itemcontainer.py:ItemContainer.item_move_to_back"]}
{"id": "C13", "title": "col_map is a simultaneous rename", "statement": "Struct.col_map(d) either raises or renames all columns simultaneously: the column formerly called a holds its data under d[a], chains and cycles included, and columns not named in d are untouched.", "quantifier": "every Struct and every rename dictionary", "why_tests_cant": "arbitrary chains and cycles between names", "anchors": ["riptable/rt_struct.py:Struct.col_map", "riptable/rt_struct.py:Struct._safe_reordering_of_renames", "riptable/rt_struct.py:Struct.col_swap"]}
{"id": "C14", "title": "col_str_replace keeps every column", "statement": "Struct.col_str_replace never loses a column: after it, the Struct still has as many columns as before (or it raised).", "quantifier": "every Struct and every pair of strings", "why_tests_cant": "collisions depend on all names", "anchors": ["riptable/rt_itemcontainer.py:ItemContainer.item_str_replace", "riptable/rt_struct.py:Struct.col_str_replace"]}
{"id": "C15", "title": "flatten / flatten_undo round trip", "statement": "For every nested Struct whose names do not contain the separator, flatten_undo(flatten(s)) rebuilds the same nested structure with the same leaves in the same order.", "quantifier": "every finite nesting (any depth, any width)", "why_tests_cant": "trees of unbounded depth", "anchors": ["riptable/rt_struct.py:Struct.flatten", "riptable/rt_struct.py:Struct.flatten_undo", "riptable/rt_struct.py:Struct._flatten_undo"]}
{"id": "C16", "title": "fill_forward / fill_backward", "statement": "FastArray.fill_forward(fill_val, limit) replaces an invalid element by the last valid element before it if the distance within the invalid run is at most limit (no limit when 0), by fill_val when there is no earlier valid element, and leaves valid elements unchanged; fill_backward is its mirror image.", "quantifier": "every array, every limit, every fill value", "why_tests_cant": "all arrays and runs", "anchors": ["riptable/rt_fastarraynumba.py:fill_forward", "riptable/rt_fastarraynumba.py:fill_backward"]}
{"id": "C17", "title": "Grouped fill", "statement": "GroupBy fill_forward / fill_backward gives every grouped row the value the ungrouped fill gives when applied to that row's group alone; rows of different groups never influence each other; all output cells are determined by the inputs.", "quantifier": "every grouping, every column, every limit, every schedule", "why_tests_cant": "all groupings and schedules", "anchors": ["riptable/rt_groupbynumba.py:_nb_fill_backend", "riptable/rt_groupbynumba.py:_numba_fill_direction"]}
{"id": "C18", "title": "Running minimum and maximum", "statement": "FastArray.cummin / cummax with skipna=True return at each position the extreme over the valid prefix; with skipna=False, once an invalid value has occurred every later position is invalid.", "quantifier": "every array of signed, unsigned or floating values", "why_tests_cant": "all arrays", "anchors": ["riptable/rt_fastarraynumba.py:nb_cummin", "riptable/rt_fastarraynumba.py:nb_cummax"]}
{"id": "C19", "title": "Grouped numba reductions and their work split", "statement": "The multi-core grouped sum equals, for each bin, the sum of its valid elements, whatever the number of cores; the grouped minimum equals the minimum of the valid elements of each bin.", "quantifier": "every grouping, column, core count and schedule", "why_tests_cant": "all groupings, core counts and schedules", "anchors": ["riptable/rt_groupbynumba.py:build_core_list", "riptable/rt_groupbynumba.py:_numbasum", "riptable/rt_groupbynumba.py:_numbamin"]}
{"id": "C20", "title": "Composite keys are faithful", "statement": "cat2keys / combining two groupings gives two rows the same group exactly when they agree on both keys (a filtered key counting as a value of its own), every row still shows both its key values, and a row removed by the filter argument is filtered in the result.", "quantifier": "every pair of groupings of any size", "why_tests_cant": "all key combinations", "anchors": ["riptable/rt_grouping.py:combine2groups", "riptable/rt_numpy.py:cat2keys"]}
{"id": "C21", "title": "Stacking categoricals preserves values", "statement": "hstack of Categoricals: row i of the stacked categorical expands to the value it had in its source; filtered rows stay filtered; the stacked categories have no duplicates.", "quantifier": "every list of categoricals with any categories in any order", "why_tests_cant": "all category lists and overlaps", "anchors": ["riptable/rt_grouping.py:hstack_groupings", "riptable/rt_grouping.py:merge_cats", "riptable/rt_hstack.py"]}
{"id": "C22", "title": "Stacking mapped categoricals", "statement": "hstack of Categoricals built from integer code mappings keeps the string each row showed before stacking.", "quantifier": "every list of mapped categoricals with any mappings", "why_tests_cant": "all mappings, including conflicting ones", "anchors": ["riptable/rt_grouping.py:GroupingEnum", "riptable/rt_grouping.py:hstack_groupings"]}
{"id": "C23", "title": "Regrouping drops only unused categories", "statement": "Grouping.regroup keeps the expanded value of every row that passes the filter, filters every other row, and the new categories are exactly those still used.", "quantifier": "every grouping and every boolean filter", "why_tests_cant": "all groupings and filters", "anchors": ["riptable/rt_grouping.py:Grouping.regroup"]}
{"id": "C24", "title": "Shrinking categories", "statement": "Categorical.shrink(newcats, misc): rows whose value is in newcats keep their value, all other rows become misc (or filtered when misc is None); the categories are exactly newcats (plus misc).", "quantifier": "every categorical, every new category list", "why_tests_cant": "all lists, including new categories that never occurred", "anchors": ["riptable/rt_grouping.py:Grouping.shrink", "riptable/rt_categorical.py:Categorical.shrink"]}
{"id": "C25", "title": "Group index dtype never overflows", "statement": "The integer type chosen for a categorical's codes can represent every code from 0 to the number of categories.", "quantifier": "every number of categories", "why_tests_cant": "counts up to 2^63", "anchors": ["riptable/rt_enum.py:int_dtype_from_len", "riptable/rt_grouping.py:Grouping.possibly_recast"]}
{"id": "C26", "title": "take_groups / extract_groups", "statement": "extracting groups from a packed column returns, group after group in the requested order, exactly the elements of those groups in their original order.", "quantifier": "every grouping and group selection", "why_tests_cant": "all groupings", "anchors": ["riptable/rt_grouping.py:extract_groups", "riptable/rt_grouping.py:Grouping.take_groups"]}
{"id": "C27", "title": "Packing by group does not depend on history", "statement": "pack_by_group / igroup returned for a given filter depends only on the grouping and that filter, not on earlier calls.", "quantifier": "every call history", "why_tests_cant": "histories are unbounded", "anchors": ["riptable/rt_grouping.py:Grouping.pack_by_group"]}
{"id": "C28", "title": "User-function apply dtype independence", "statement": "GroupBy.apply_reduce/apply on several columns computes each column's results as if that column were processed alone.", "quantifier": "every list of columns and every reduction function", "why_tests_cant": "all user functions and column orders", "anchors": ["riptable/rt_grouping.py:Grouping.apply_helper"]}
{"id": "C29", "title": "Comparing a categorical with a string", "statement": "For a categorical with sorted categories, c==s, c!=s, c<s, c<=s, c>s, c>=s agree row by row with comparing the expanded strings with s, also when s is not one of the categories; filtered rows compare False (True for !=).", "quantifier": "every sorted category list, every code array, every scalar", "why_tests_cant": "all strings incl. those between or outside the categories", "anchors": ["riptable/rt_categorical.py:Categories.get_category_index", "riptable/rt_categorical.py:Categorical._categorical_compare_check"]}
{"id": "C30", "title": "isin on a categorical", "statement": "Categorical.isin(values) is True exactly for the rows whose value is among values; filtered rows are False.", "quantifier": "every categorical and list of values", "why_tests_cant": "all codes incl. filtered rows", "anchors": ["riptable/rt_categorical.py:Categorical.isin", "riptable/rt_grouping.py:Grouping.isin"]}
{"id": "C31", "title": "Category editing keeps other rows", "statement": "category_add, category_remove and category_replace leave the displayed value of every row not holding the edited category unchanged.", "quantifier": "every categorical and every edit history", "why_tests_cant": "edit histories are unbounded", "anchors": ["riptable/rt_categorical.py:Categories._array_edit", "riptable/rt_categorical.py:Categorical.category_remove"]}
{"id": "C32", "title": "Mapping edits keep code<->string maps mutually inverse", "statement": "mapping_add, mapping_remove, mapping_replace keep the two lookup dictionaries of a mapped categorical mutually inverse.", "quantifier": "every history of mapping edits", "why_tests_cant": "histories are unbounded", "anchors": ["riptable/rt_categorical.py:Categories._mapping_edit"]}
{"id": "C33", "title": "Assignment with auto-add", "statement": "c[i] = 'new' on an auto-adding categorical sets row i and changes no other row.", "quantifier": "every categorical, index and value", "why_tests_cant": "all states incl. filtered rows", "anchors": ["riptable/rt_categorical.py:Categorical.__setitem__", "riptable/rt_categorical.py:Categories._possibly_add_categories"]}
{"id": "C34", "title": "Assigning from another categorical", "statement": "c[mask] = other_categorical stores other's values.", "quantifier": "every pair of categoricals", "why_tests_cant": "all category lists", "anchors": ["riptable/rt_categorical.py:Categorical.__setitem__"]}
{"id": "C35", "title": "set_valid leaves its source alone", "statement": "Categorical.set_valid(filter) returns a categorical in which exactly the passing rows keep their value, and does not modify the categorical it is called on.", "quantifier": "every categorical and filter", "why_tests_cant": "aliasing for all inputs", "anchors": ["riptable/rt_categorical.py:Categorical.set_valid"]}
{"id": "C36", "title": "expand_dict / expand_array", "statement": "expand_array and expand_dict return for every row the category the code designates, for base index 0 as well as 1.", "quantifier": "every categorical", "why_tests_cant": "all codes", "anchors": ["riptable/rt_categorical.py:Categorical.expand_array", "riptable/rt_categorical.py:Categorical.expand_dict"]}
{"id": "C37", "title": "Deduplicating categories", "statement": "category_make_unique removes duplicate categories without changing any row's expanded value, and keeps filtered rows filtered.", "quantifier": "every category list with duplicates", "why_tests_cant": "all duplicate patterns", "anchors": ["riptable/rt_categorical.py:Categorical._from_maybe_non_unique_labels", "riptable/rt_categorical.py:Categorical._category_make_unique_multi_key"]}
{"id": "C38", "title": "align", "statement": "Categorical.align(list) returns categoricals with identical category lists, each expanding to the same values as before.", "quantifier": "every list of categoricals", "why_tests_cant": "all lists", "anchors": ["riptable/rt_categorical.py:Categorical.align"]}
{"id": "C39", "title": "Left join", "statement": "merge2(how='left') with unrestricted keep returns exactly the rows of the relational left join, in left-row order and, within a left row, in right-row order; unmatched and null-key left rows appear once with invalid right columns.", "quantifier": "every pair of key columns (any duplicates, any nulls)", "why_tests_cant": "all multiplicities", "anchors": ["riptable/rt_merge.py:_create_merge_fancy_indices", "riptable/rt_merge.py:_build_left_fancyindex", "riptable/rt_merge.py:_build_right_fancyindex"]}
{"id": "C40", "title": "Inner join", "statement": "merge2(how='inner') returns exactly the matching pairs, in left-row then right-row order.", "quantifier": "every pair of key columns", "why_tests_cant": "all multiplicities", "anchors": ["riptable/rt_merge.py:_create_merge_fancy_indices"]}
{"id": "C41", "title": "Right join mirrors left join", "statement": "merge2(how='right') of (L,R) is merge2(how='left') of (R,L) with the roles exchanged.", "quantifier": "every pair of key columns", "why_tests_cant": "all multiplicities", "anchors": ["riptable/rt_merge.py:_create_merge_fancy_indices"]}
{"id": "C42", "title": "Outer join", "statement": "merge2(how='outer') is the left join followed by the right rows that have no match, each once, in right-row order.", "quantifier": "every pair of key columns", "why_tests_cant": "all multiplicities and nulls", "anchors": ["riptable/rt_merge.py:_create_merge_fancy_indices"]}
{"id": "C43", "title": "keep='first' / keep='last'", "statement": "With keep=(left,right) only the first / last row per key of the respective side takes part in the join; the index arrays for the two sides always have equal length.", "quantifier": "every combination of how and keep, all key columns", "why_tests_cant": "all multiplicities and nulls", "anchors": ["riptable/rt_merge.py:_get_keep_ifirstlastkey", "riptable/rt_merge.py:_get_keep_ikey", "riptable/rt_merge.py:_build_right_fancyindex"]}
{"id": "C44", "title": "Join cardinality validation", "statement": "merge2(validate=...) raises exactly when the requested uniqueness of the left / right keys is violated.", "quantifier": "every pair of key columns", "why_tests_cant": "all multiplicities", "anchors": ["riptable/rt_merge.py:_validate_groupings"]}
{"id": "C45", "title": "Merged column names", "statement": "The column names of a merge result are pairwise distinct, every input column appears (key columns once), and unresolvable clashes raise ValueError.", "quantifier": "every pair of column name lists, key lists and suffixes", "why_tests_cant": "all names and suffixes", "anchors": ["riptable/rt_merge.py:_construct_colname_mapping"]}
{"id": "C46", "title": "Mismatched key list lengths are rejected", "statement": "merge2 raises ValueError when left_on and right_on have different lengths.", "quantifier": "every pair of lists", "why_tests_cant": "all lengths", "anchors": ["riptable/rt_merge.py:merge2"]}
{"id": "C47", "title": "merge_lookup preserves left rows", "statement": "merge_lookup returns exactly one row per left row, in order, each carrying the right row for its key (first or last on duplicates) or invalids.", "quantifier": "every pair of key columns", "why_tests_cant": "all multiplicities", "anchors": ["riptable/rt_merge.py:merge_lookup"]}
{"id": "C48", "title": "Backward as-of match", "statement": "merge_asof2(direction='backward') gives each left row the last right row whose key is <= (or < when exact matches are disallowed) the left key, provided it is within tolerance, else no match.", "quantifier": "every pair of sorted null-free int64 key columns with duplicates (with a tolerance: whose differences fit int64)", "why_tests_cant": "all key sequences", "anchors": ["riptable/rt_merge_asof.py:_merge_asof_backward"]}
{"id": "C49", "title": "Forward as-of match", "statement": "merge_asof2(direction='forward') gives each left row the first right row whose key is >= (or >) the left key within tolerance, else no match.", "quantifier": "every pair of sorted null-free int64 key columns with duplicates (with a tolerance: whose differences fit int64)", "why_tests_cant": "all key sequences", "anchors": ["riptable/rt_merge_asof.py:_merge_asof_forward"]}
{"id": "C50", "title": "Nearest as-of match", "statement": "direction='nearest' picks whichever of the backward and forward matches is closer, the backward one on ties.", "quantifier": "every pair of sorted null-free int64 key columns whose differences fit int64", "why_tests_cant": "all key sequences", "anchors": ["riptable/rt_merge_asof.py:combine_into_nearest"]}
{"id": "C51", "title": "Grouped as-of match", "statement": "With a 'by' key, each left row is matched only within its own group, exactly as if the ungrouped merge had been run on that group alone; the result is independent of how groups are scheduled on threads.", "quantifier": "every grouping and every schedule", "why_tests_cant": "all groupings and schedules", "anchors": ["riptable/rt_merge_asof.py:_merge_asof_grouped_backward", "riptable/rt_merge_asof.py:_merge_asof_grouped_forward"]}
{"id": "C52", "title": "Unsorted as-of keys are detected", "statement": "merge_asof2 raises ValueError when either key column is unsorted, and never for sorted ones.", "quantifier": "every pair of key columns", "why_tests_cant": "unsortedness may be anywhere", "anchors": ["riptable/rt_merge_asof.py"]}
{"id": "C53", "title": "Fancy-index width", "statement": "The integer type chosen for merge row indices can hold every valid row number and its invalid marker is never a valid row number.", "quantifier": "every row count", "why_tests_cant": "row counts up to 2^63", "anchors": ["riptable/rt_merge_asof.py:_fancyindex_dtype_from_shape"]}
{"id": "C54", "title": "Dataset.duplicated", "statement": "duplicated(keep) marks, for every key, all rows but the first ('first'), all but the last ('last'), or all rows of repeated keys (False).", "quantifier": "every key column", "why_tests_cant": "all multiplicities and orders", "anchors": ["riptable/rt_dataset.py:Dataset.duplicated"]}
{"id": "C55", "title": "from_jagged_dict", "statement": "Dataset.from_jagged_dict(stacked) produces, row by row, the cross product / stacking of the jagged lists with every value alongside the key it came from.", "quantifier": "every dictionary of jagged lists", "why_tests_cant": "all list lengths", "anchors": ["riptable/rt_dataset.py:Dataset.from_jagged_dict"]}
{"id": "C56", "title": "melt", "statement": "Dataset.melt returns N*K rows; row k*N+i carries id columns of row i, the k-th variable's name and its value in row i.", "quantifier": "every dataset, id and value column selection", "why_tests_cant": "all sizes", "anchors": ["riptable/rt_dataset.py:Dataset.melt"]}
{"id": "C57", "title": "Stacking datasets", "statement": "Dataset.concat_rows / hstack: the result has the concatenated rows; each column holds each source's values at that source's row range and invalids where the source lacks the column.", "quantifier": "every list of datasets with any column sets", "why_tests_cant": "all column sets", "anchors": ["riptable/rt_hstack.py:_hstack_dataset", "riptable/rt_hstack.py:_possibly_add_concat_gap"]}
{"id": "C58", "title": "concat_columns", "statement": "Dataset.concat_columns with do_raise_or 'first'/'last' keeps each name once, with the first / last dataset's column.", "quantifier": "every list of datasets of equal height", "why_tests_cant": "all name overlaps", "anchors": ["riptable/rt_dataset.py:Dataset.concat_columns"]}
{"id": "C59", "title": "iterrows yields independent rows", "statement": "The rows obtained from Dataset.iterrows keep their values after iteration continues.", "quantifier": "every dataset", "why_tests_cant": "aliasing over time", "anchors": ["riptable/rt_dataset.py:Dataset.iterrows"]}
{"id": "C60", "title": "Sort cache is transparent", "statement": "The row order a dataset is displayed or indexed in is the one a fresh sort of its current columns would give, whatever sorts, displays, in-place edits, renames, loads and invalidations happened before: no history can tell that orders are cached.", "quantifier": "every history of sorts, in-place edits and invalidations", "why_tests_cant": "histories are unbounded", "anchors": ["riptable/rt_sort_cache.py:SortCache"]}
{"id": "C61", "title": "Partition bookkeeping", "statement": "The partition slices of a PDataset are contiguous, disjoint and cover all rows; each partition is the dataset it was stacked from; the row labels and the partition categorical show, for every row, the current name of the partition whose slice it lies in.", "quantifier": "every list of partition lengths", "why_tests_cant": "all lengths incl. zero", "anchors": ["riptable/rt_pdataset.py:PDataset"]}
{"id": "C62", "title": "Partition names from file names", "statement": "Partition names made from file names are pairwise distinct and each is a part of its file name (or all are p0, p1, ..); files that differ only in a number are named by that number.", "quantifier": "every list of file names", "why_tests_cant": "all names", "anchors": ["riptable/rt_pdataset.py:PDataset._filenames_to_pnames"]}
{"id": "C63", "title": "Calendar decomposition of Date", "statement": "Date.year, month, day_of_month, day_of_year, is_leapyear, day_of_week and yyyymmdd agree with the proleptic Gregorian calendar.", "quantifier": "every day number from 1970-01-01 on", "why_tests_cant": "the whole range of dates", "anchors": ["riptable/rt_datetime.py:TimeStampBase._year", "riptable/rt_datetime.py:TimeStampBase._month", "riptable/rt_datetime.py:Date"]}
{"id": "C64", "title": "DateTimeNano calendar fields agree with each other", "statement": "For every instant and time zone, year, month, day_of_month, day_of_year, weekday, yyyymmdd, hour, minute and date() of a DateTimeNano are those of its local date and time.", "quantifier": "every instant, every supported zone", "why_tests_cant": "all instants, near local midnight and new year", "anchors": ["riptable/rt_datetime.py:DateTimeCommon.day_of_month", "riptable/rt_datetime.py:DateTimeCommon.yyyymmdd"]}
{"id": "C65", "title": "Daylight saving rule", "statement": "DateTimeNano in New York / Dublin shows local time with the UTC offset prescribed by the zone's daylight-saving rule.", "quantifier": "every instant from 2007 to the end of the table", "why_tests_cant": "all instants incl. the exact switch", "anchors": ["riptable/rt_timezone.py:TimeZone.fix_dst", "riptable/rt_timezone.py:TimeZone._mask_dst"]}
{"id": "C66", "title": "Local/UTC round trip", "statement": "Converting a local time to UTC and back gives the same local time whenever the local time exists, and UTC to local to UTC gives the same instant outside the repeated hour.", "quantifier": "every instant and zone", "why_tests_cant": "all instants", "anchors": ["riptable/rt_timezone.py:TimeZone.to_utc", "riptable/rt_timezone.py:TimeZone.fix_dst"]}
{"id": "C67", "title": "Lossless common type", "statement": "When two key arrays are brought to a common type for matching, distinct values stay distinct and equal values stay equal.", "quantifier": "every pair of numeric dtypes and every pair of values", "why_tests_cant": "2^64 values per dtype", "anchors": ["riptable/rt_numpy.py:_find_lossless_common_type", "riptable/rt_numpy.py:_find_lossless_common_array_type"]}
{"id": "C68", "title": "Fancy indexing with invalid positions", "statement": "mbget(values, index) returns values[i] for indices in range (negative ones counting from the end) and the default / invalid value for every other index.", "quantifier": "every array and every index array", "why_tests_cant": "all integers", "anchors": ["riptable/rt_utils.py:mbget", "riptable/rt_fastarray.py:FastArray.__getitem__"]}
{"id": "C69", "title": "substr_char_stop", "statement": "FAString.substr_char_stop(stop, inclusive) returns the text before the first occurrence of stop (with stop kept when inclusive), or the whole text when stop does not occur.", "quantifier": "every text, every non-empty stop string, both values of inclusive", "why_tests_cant": "all texts and stop strings", "anchors": ["riptable/rt_str.py:FAString.substr_char_stop"]}
{"id": "C70", "title": "As-of tolerance for far-apart keys", "statement": "merge_asof2 with a tolerance never matches two rows whose keys differ by more than the tolerance, however far apart they are.", "quantifier": "every pair of sorted int64 key columns, including differences beyond the int64 range", "why_tests_cant": "extreme key values", "anchors": ["riptable/rt_merge_asof.py:_merge_asof_backward"]}
{"id": "C71", "title": "Merged columns follow the joined rows", "statement": "Every column of a merge2 result is the source column taken along the rows of the relational join (invalid where the row has no partner; shared key columns from whichever side has the row), all columns have the same length, and the indicator column tells which side(s) each row came from.", "quantifier": "every pair of datasets, key lists of equal length, how, keep, suffixes and column selections", "why_tests_cant": "all tables and multiplicities", "anchors": ["riptable/rt_merge.py:merge2", "riptable/rt_merge.py:merge_indices"]}
{"id": "C72", "title": "Grouped EMA uses only the rows of the group", "statement": "The grouped numba exponential moving average gives the rows of each group exactly the moving average of that group's own (value, time) series in row order, starting afresh in each group, for every schedule of the parallel loop.", "quantifier": "every grouping, column, time array and schedule", "why_tests_cant": "all groupings and schedules", "anchors": ["riptable/rt_groupbynumba.py:GroupbyNumba._numbaEMA", "riptable/rt_groupbynumba.py:GroupbyNumba.nb_ema"]}
{"id": "C73", "title": "apply_nonreduce keeps rows aligned", "statement": "GroupBy.apply_nonreduce(f): for every group, the output rows of the group are, in row order, the array f returns for the group's input rows; the result does not depend on how rows of different groups are interleaved.", "quantifier": "every grouping, filter, column and length-preserving function", "why_tests_cant": "all groupings and all user functions", "anchors": ["riptable/rt_grouping.py:Grouping.apply_helper", "riptable/rt_groupbyops.py:GroupByOps.apply_nonreduce"]}
{"id": "C74", "title": "count with transform=True", "statement": "count(transform=True) gives every row the number of (unfiltered) rows in its own group.", "quantifier": "every grouping and filter", "why_tests_cant": "all groupings, including filtered rows", "anchors": ["riptable/rt_grouping.py:Grouping.count"]}
{"id": "C75", "title": "Comparing two categoricals", "statement": "c == d and c != d for two categoricals of the same length compare the values of the rows, whatever the two category lists are; c < d orders by value.", "quantifier": "every pair of categoricals, base index 0 or 1", "why_tests_cant": "all pairs of category lists", "anchors": ["riptable/rt_categorical.py:Categorical._categorical_compare_check", "riptable/rt_grouping.py:merge_cats"]}
{"id": "C76", "title": "Copies and slices are independent", "statement": "A copy or row selection of a categorical shows the same values as the original, and editing one does not change what the other shows.", "quantifier": "every categorical and every later edit", "why_tests_cant": "all histories of copies and edits", "anchors": ["riptable/rt_categorical.py:Categorical.copy", "riptable/rt_categorical.py:Categories._copy", "riptable/rt_categorical.py:Categorical.__getitem__"]}
{"id": "C77", "title": "unique of a categorical", "statement": "unique(c) and unique(c, filter=f) return exactly the values shown by (passing) rows, once each.", "quantifier": "every categorical and filter", "why_tests_cant": "all categoricals, with unused categories and filtered rows", "anchors": ["riptable/rt_numpy.py:unique", "riptable/rt_grouping.py:Grouping.regroup"]}
{"id": "C78", "title": "Mapping a categorical through a dictionary", "statement": "c.map(d, invalid) gives every row d[value], and invalid for values not in d and for filtered rows.", "quantifier": "every categorical and dictionary", "why_tests_cant": "all dictionaries", "anchors": ["riptable/rt_categorical.py:Categorical.map"]}
{"id": "C79", "title": "nunique and one-hot encoding of a categorical", "statement": "c.nunique() is the number of distinct values shown (filtered rows not counted); column j of one_hot_encode is True exactly where the row shows category j.", "quantifier": "every categorical", "why_tests_cant": "all code arrays", "anchors": ["riptable/rt_categorical.py:Categorical.nunique", "riptable/rt_categorical.py:Categorical.one_hot_encode"]}
{"id": "C80", "title": "Shifting a categorical", "statement": "shift_cat(n) moves every row's value down n places; the rows brought in are filtered.", "quantifier": "every categorical and n >= 0", "why_tests_cant": "all categoricals, base index 0 or 1", "anchors": ["riptable/rt_categorical.py:Categorical.shift_cat"]}
{"id": "C81", "title": "from_rows", "statement": "Dataset.from_rows(rows, names) has one row per input row and one column per name, cell (name j, row i) being the j-th item of row i; it raises exactly when some row has another length.", "quantifier": "every list of rows and names", "why_tests_cant": "all shapes", "anchors": ["riptable/rt_dataset.py:Dataset.from_rows"]}
{"id": "C82", "title": "from_tagged_rows", "statement": "Dataset.from_tagged_rows(rows) has one row per dictionary and one column per key, holding the value of that key; rows with different key sets are refused.", "quantifier": "every list of dictionaries", "why_tests_cant": "all key orders and key sets", "anchors": ["riptable/rt_dataset.py:Dataset.from_tagged_rows"]}
{"id": "C83", "title": "from_jagged_rows", "statement": "Dataset.from_jagged_rows(rows, base, fill): column base+i holds the i-th item of every row, and the fill for rows without one.", "quantifier": "every list of rows of any lengths", "why_tests_cant": "all row lengths and fills", "anchors": ["riptable/rt_dataset.py:Dataset.from_jagged_rows"]}
{"id": "C84", "title": "Dataset.trim", "statement": "trim removes exactly the rows in which every tested column is zero or nan (or satisfies the function given) and the tested columns that are so everywhere; no other row, column or value changes, and rows keep their order.", "quantifier": "every dataset, function and combination of keep, columns and rows flags", "why_tests_cant": "all datasets", "anchors": ["riptable/rt_dataset.py:Dataset.trim"]}
{"id": "C85", "title": "A sort view shows the requested order", "statement": "After sort_view(by, ascending), str/repr/sorted indexing deliver a row order sorted by the requested keys in the requested directions over the current values, through column renames, prefixes, edits and copies; without a request (after sorts_off, or when a key column is replaced or deleted) rows keep their own order.", "quantifier": "every history of operations on any number of datasets", "why_tests_cant": "histories are unbounded; key lists may be shared between datasets", "anchors": ["riptable/rt_dataset.py:Dataset.sort_view", "riptable/rt_struct.py:Struct._update_sort", "riptable/rt_dataset.py:Dataset._copy_attributes"]}
{"id": "C86", "title": "sort_copy and sort_inplace", "statement": "sort_copy(by, ascending) gives a dataset with the same columns, all rearranged by one row order which lists every row once and is sorted by the keys, each in its own direction, leaving the source alone; sort_inplace does the same to the dataset itself and changes no other dataset.", "quantifier": "every dataset, key list and direction list", "why_tests_cant": "all columns, ties and directions", "anchors": ["riptable/rt_dataset.py:Dataset.sort_copy", "riptable/rt_dataset.py:Dataset.sort_inplace"]}
{"id": "C87", "title": "Date arithmetic, start of month and week, ranges", "statement": "Adding or subtracting days moves a valid date by that many days and keeps an invalid one invalid; start_of_month is the first day of the date's month, start_of_week the Monday on or before it; Date.range lists exactly the dates between its ends (each included as closed says), step days apart, or the given number of dates.", "quantifier": "every date array, offset, range and step", "why_tests_cant": "all dates and ranges", "anchors": ["riptable/rt_datetime.py:Date.range", "riptable/rt_datetime.py:Date.start_of_month", "riptable/rt_datetime.py:Date.start_of_week", "riptable/rt_datetime.py:DateBase._funnel_mathops"]}
{"id": "C88", "title": "Comparison with invalid dates", "statement": "Comparisons of Date and DateTimeNano agree with calendar order on valid values; if either operand is invalid every comparison except != is False and != is True.", "quantifier": "every pair of arrays and every comparison", "why_tests_cant": "all pairs of values", "anchors": ["riptable/rt_datetime.py:_preserve_invalid_comparison", "riptable/rt_datetime.py:Date._date_compare_check", "riptable/rt_datetime.py:DateTimeNano._datetimenano_compare_check"]}
{"id": "C89", "title": "Time buckets", "statement": "cut_time puts every time of day into the bucket between the two consecutive cut points around it (right end included), times outside all buckets and invalid times into none, and labels each bucket by the chosen end point; a pre (post) bucket takes all earlier (later) times.", "quantifier": "every set of cut points and every time", "why_tests_cant": "all times incl. the exact cut points", "anchors": ["riptable/rt_datetime.py:DateTimeNano.cut_time"]}
{"id": "C90", "title": "Resampling times", "statement": "resample with dropna rounds each valid time down to a multiple of the interval; without it returns evenly spaced interval starts covering all valid times and nothing beyond them.", "quantifier": "every array and interval", "why_tests_cant": "all times", "anchors": ["riptable/rt_datetime.py:DateTimeNano.resample"]}
{"id": "C91", "title": "Changing time zones and Arrow round trip", "statement": "astimezone and set_timezone keep every instant and only change how it is displayed; converting to Arrow and back keeps every instant and every invalid value.", "quantifier": "every array and pair of zones", "why_tests_cant": "all instants and zones", "anchors": ["riptable/rt_datetime.py:DateTimeNano.astimezone", "riptable/rt_datetime.py:DateTimeNano.set_timezone", "riptable/rt_datetime.py:DateTimeNano.to_arrow"]}
{"id": "C92", "title": "Smallest type for a number", "statement": "min_scalar_type of an integer returns the narrowest integer type that can hold it; with promote_invalid the number is not that type's invalid value, and with prefer_signed the type is signed.", "quantifier": "every integer and both flags", "why_tests_cant": "all integers around every type's limits", "anchors": ["riptable/rt_numpy.py:min_scalar_type"]}
{"id": "C93", "title": "shift and diff", "statement": "a.shift(p) gives row i the element p rows earlier (later when p<0) and the invalid value where there is none, leaving a unchanged; a.diff(p) gives the difference of the two; shifting back restores every row that was not shifted out; diff raises when p is 0.", "quantifier": "every array, element type and number of periods (positive, negative, zero, beyond the length)", "why_tests_cant": "all lengths and periods; new memory may hold anything", "anchors": ["riptable/rt_fastarray.py:FastArray.shift", "riptable/rt_fastarray.py:FastArray.diff"]}
{"id": "C94", "title": "transitions and differs", "statement": "transitions(p) marks exactly the rows different from the element p rows before, differs(p) exactly the rows equal to it (as documented); rows without such an element are not marked; p=0 raises; numbers and strings alike.", "quantifier": "every array, element type and number of periods", "why_tests_cant": "all lengths, periods and element types", "anchors": ["riptable/rt_fastarray.py:FastArray.transitions", "riptable/rt_fastarray.py:FastArray.differs", "riptable/rt_fastarray.py:FastArray._internal_self_compare"]}
{"id": "C95", "title": "FastArray.duplicated", "statement": "duplicated marks, with keep='first', exactly the elements that occurred before; with 'last', those that occur again later; with False, those that occur elsewhere.", "quantifier": "every array and every order in which the distinct values are numbered", "why_tests_cant": "all arrays; hashing and sorting number groups differently", "anchors": ["riptable/rt_fastarray.py:FastArray.duplicated", "riptable/rt_grouping.py:Grouping.ifirstkey"]}
{"id": "C96", "title": "map and replacena", "statement": "map(dict) replaces every element by its dictionary value, all at once, and gives the invalid value where there is no entry (map_old keeps the element); replacena and fillna(value) change exactly the invalid rows, to one value or to the given values in order, and change the array itself only with inplace=True.", "quantifier": "every array, dictionary and value list", "why_tests_cant": "all dictionaries incl. chains and cycles, all positions of invalid rows", "anchors": ["riptable/rt_fastarray.py:FastArray.map", "riptable/rt_fastarray.py:FastArray.map_old", "riptable/rt_fastarray.py:FastArray.replacena", "riptable/rt_fastarray.py:FastArray.fillna"]}
{"id": "C97", "title": "Mask operations", "statement": "mask_or, mask_and, mask_xor and mask_andnot of any number of masks give the operation applied across them element by element, in a new array and without changing the arguments; the in-place forms put it in the first argument and change nothing else; masks of different lengths are refused without effect.", "quantifier": "every list of masks (repeated ones included)", "why_tests_cant": "any number of arguments, aliasing among them", "anchors": ["riptable/rt_numpy.py:_mask_op", "riptable/rt_numpy.py:mask_or", "riptable/rt_numpy.py:mask_ori"]}
{"id": "C98", "title": "quantile of an array", "statement": "rt_bin.quantile(x, q) is the linearly interpolated q-quantile of the finite values of x, independent of their order, ignoring NaN and infinities; it grows with q; 'lower' and 'higher' give the neighbouring values instead.", "quantifier": "every array, every q in [0,1], every sort order of equal values", "why_tests_cant": "all arrays and all q", "anchors": ["riptable/rt_bin.py:quantile"]}
{"id": "C99", "title": "Dataset.quantile and describe", "statement": "For every numeric column, Dataset.quantile(q) gives the interpolated quantiles of the valid values, and describe gives the numbers of rows, valid rows and invalid rows, the smallest and largest valid value, the quantiles, and as MeanM the mean after removing equally many smallest and largest values.", "quantifier": "every numeric column, any positions of invalid values, every list of q in [0,1]", "why_tests_cant": "all columns and types", "anchors": ["riptable/rt_utils.py:quantile", "riptable/rt_utils.py:describe_helper", "riptable/rt_utils.py:interpolate"]}
{"id": "C100", "title": "sample", "statement": "sample(N, filter) returns min(N, number of rows passing the filter) different rows, all passing the filter, in their original order, whatever the random generator does.", "quantifier": "every dataset, N, filter and every outcome of the generator", "why_tests_cant": "all random outcomes", "anchors": ["riptable/rt_utils.py:sample"]}
{"id": "C101", "title": "Dataset row-count invariant", "statement": "After construction and any sequence of column assignments, deletions, in-place filters, cell assignments, putmask calls, label changes, locking, and failures of any of these, column names are distinct, shape is right and every column has exactly len(ds) rows.", "quantifier": "every dictionary of values and every sequence of operations, with arrays shared between columns and views", "why_tests_cant": "unbounded histories, including failing operations and aliasing", "anchors": ["riptable/rt_dataset.py:Dataset._check_addtype", "riptable/rt_dataset.py:Dataset._check_add_dimensions", "riptable/rt_struct.py:Struct.__setattr__", "riptable/rt_struct.py:Struct.__delattr__", "riptable/rt_dataset.py:Dataset.filter"]}
{"id": "C102", "title": "A failing Dataset operation changes nothing", "statement": "When a column assignment, deletion, filter, cell assignment or putmask raises, the dataset and all arrays are as before.", "quantifier": "every dataset, operation and argument", "why_tests_cant": "every failure point of every operation", "anchors": ["riptable/rt_dataset.py:Dataset.__setitem__", "riptable/rt_struct.py:Struct.__setattr__", "riptable/rt_dataset.py:Dataset._check_addtype"]}
{"id": "C103", "title": "Column assignment and construction", "statement": "Assigning a column replaces it or appends it at the end and leaves the others alone; values that fit (the right length, a scalar, one element) are repeated as needed, all others refused; the constructor gives exactly the given columns in order, or raises if their lengths differ.", "quantifier": "every dataset, name and value", "why_tests_cant": "all lengths and value kinds", "anchors": ["riptable/rt_dataset.py:Dataset.__init__", "riptable/rt_dataset.py:Dataset._init_from_dict", "riptable/rt_dataset.py:Dataset._check_addtype", "riptable/rt_struct.py:Struct._replaceitem"]}
{"id": "C104", "title": "Filtering and row selection", "statement": "filter with inplace=True replaces every column by its selected rows in order and sets len(ds); filter() and ds[rows,:] give a new dataset with the selected rows of every column and the labels, leaving the original alone.", "quantifier": "every dataset, mask, slice and list of positions (negative and out of range included)", "why_tests_cant": "all masks and positions", "anchors": ["riptable/rt_dataset.py:Dataset.filter", "riptable/rt_itemcontainer.py:ItemContainer.copy_inplace", "riptable/rt_itemcontainer.py:ItemContainer.copy_apply", "riptable/rt_dataset.py:Dataset._copy_attributes"]}
{"id": "C105", "title": "Assignment to cells", "statement": "ds[rows, cols] = other writes column i of other to the selected rows of the i-th named column, ds[rows, cols] = x writes x; all other cells and columns keep their values.", "quantifier": "every dataset, row selection, list of columns and right-hand side", "why_tests_cant": "all selections, repeated rows, sharing of storage between both sides", "anchors": ["riptable/rt_dataset.py:Dataset.__setitem__"]}
{"id": "C106", "title": "Dataset.putmask", "statement": "putmask(mask, other) gives the rows under the mask the values of the same rows of other, column by column, and changes nothing else.", "quantifier": "every mask and pair of datasets", "why_tests_cant": "all masks; sharing of storage", "anchors": ["riptable/rt_dataset.py:Dataset.putmask"]}
{"id": "C107", "title": "Labels and deep copies", "statement": "label_get_names returns what label_set_names set, in order; a deep copy has the same columns and labels, and whatever is done to one of the two never shows in the other.", "quantifier": "every dataset, list of labels, and every later sequence of operations on either side", "why_tests_cant": "unbounded histories on two objects with shared internals", "anchors": ["riptable/rt_struct.py:Struct.label_set_names", "riptable/rt_itemcontainer.py:ItemContainer._tagged_set_names", "riptable/rt_itemcontainer.py:ItemContainer._tagged_get_names", "riptable/rt_dataset.py:Dataset.copy"]}
{"id": "C108", "title": "Comparison of datasets", "statement": "a op b compares columns of the same name row by row; the result has one column per name of either side, False throughout where one side lacks it; different row counts raise.", "quantifier": "every pair of datasets and comparison operator", "why_tests_cant": "all combinations of names and shapes", "anchors": ["riptable/rt_dataset.py:Dataset._dataset_compare_check"]}
{"id": "C109", "title": "Dataset.equals", "statement": "equals is True exactly when both have the same columns and rows and all cells are equal, two NaNs counting as equal; equals(exact=True) also needs the same column order.", "quantifier": "every pair of datasets", "why_tests_cant": "all shapes, name sets and positions of NaN", "anchors": ["riptable/rt_dataset.py:Dataset.equals"]}
{"id": "C110", "title": "Dataset.drop_duplicates", "statement": "drop_duplicates keeps the rows whose key was not seen before ('first'), not seen after ('last'), or seen nowhere else (False), as complete rows; without inplace the dataset is unchanged.", "quantifier": "every dataset, key subset, keep and inplace", "why_tests_cant": "all repetition patterns", "anchors": ["riptable/rt_dataset.py:Dataset.drop_duplicates"]}
{"id": "C111", "title": "Dataset arithmetic", "statement": "ds op x combines every computable non-label column with the scalar, array or same-named column; other columns are kept, columns only in x do not appear, wrong lengths raise.", "quantifier": "every dataset and operand", "why_tests_cant": "all combinations of names, labels and types", "anchors": ["riptable/rt_dataset.py:Dataset._operate_iter_input_cols", "riptable/rt_dataset.py:Dataset.apply_cols", "riptable/rt_dataset.py:Dataset.__add__"]}
{"id": "C112", "title": "Key columns of grouped results do not depend on the history", "statement": "The key columns, the sorted row numbers, the key of a bin and the bin of a key always refer to the same order of the distinct keys (sorted or as found), whatever was asked before and whether or not the filtered entry was shown in between.", "quantifier": "every key table, display setting and sequence of uses", "why_tests_cant": "lazily cached sort and filter states, unbounded histories", "anchors": ["riptable/rt_groupbykeys.py:GroupByKeys.keys", "riptable/rt_groupbykeys.py:GroupByKeys.gbkeys_filtered", "riptable/rt_groupbykeys.py:GroupByKeys.isortrows", "riptable/rt_groupbykeys.py:GroupByKeys.get_bin_from_index", "riptable/rt_groupbykeys.py:GroupByKeys.get_index_from_tuple"]}
{"id": "C113", "title": "A grouped result row carries its own key", "statement": "In the result of a grouped reduction, count or apply_reduce the row of a key holds the function of exactly the rows of that key that pass the filter, the keys appear once each in display order, and the filtered rows come first when asked for; earlier calculations on the same object make no difference.", "quantifier": "every grouping, data, filter, function and earlier history of the object", "why_tests_cant": "all groupings and histories, two independent reorderings that must agree", "anchors": ["riptable/rt_grouping.py:Grouping._calculate_all", "riptable/rt_grouping.py:Grouping._return_dataset", "riptable/rt_grouping.py:Grouping._finalize_dataset", "riptable/rt_grouping.py:Grouping.count", "riptable/rt_groupbyops.py:GroupByOps.apply_reduce"]}
{"id": "C114", "title": "transform gives every row its group's value", "statement": "With transform=True (or .transform) the result has one row per original row, each holding the value computed for the group of that row.", "quantifier": "every grouping, data, filter, function and earlier history", "why_tests_cant": "all groupings, base indexes and display settings", "anchors": ["riptable/rt_groupbyops.py:GroupByOps._possibly_transform", "riptable/rt_groupby.py:GroupBy.transform", "riptable/rt_categorical.py:Categorical.transform"]}
{"id": "C115", "title": "apply puts results where they belong", "statement": "GroupBy/Categorical.apply of a reducing function gives one row per key with rows, carrying that key; of a function that returns as many rows as it got, each result row stands at the row it was computed from.", "quantifier": "every grouping, data, filter, function and earlier history", "why_tests_cant": "all groupings and functions", "anchors": ["riptable/rt_grouping.py:Grouping.apply", "riptable/rt_groupbyops.py:GroupByOps.apply"]}
{"id": "C116", "title": "Every cell of a two-way table is the function of exactly its rows", "statement": "In the table of an Accum2 calculation the cell at row key r and column key c is the function of the data of exactly the rows that have both keys and pass the filters of the constructor and of the call; the key columns carry the row keys, the column names the column keys, both in display order, and the entries for filtered rows come first when asked for; earlier uses of the object or of its Categoricals make no difference.", "quantifier": "every pair of Categoricals, data, filters, function, display setting and earlier history", "why_tests_cant": "all codes, filters, orders and histories; rows and columns are permuted independently", "anchors": ["riptable/rt_accum2.py:Accum2._calculate_all", "riptable/rt_accum2.py:Accum2.make_dataset", "riptable/rt_accum2.py:Accum2.apply_reduce", "riptable/rt_grouping.py:combine2groups"]}
{"id": "C117", "title": "Totals of a two-way table agree with the data", "statement": "For calculations that can be done in parts (sum, min, max, count) the row totals, the column totals in the footer and the grand total are the function applied to all rows shown in that row, column or table, and stand beside the right keys.", "quantifier": "every pair of Categoricals, data, filters and decomposable function", "why_tests_cant": "all inputs; algebraic law over unbounded partitions", "anchors": ["riptable/rt_accum2.py:Accum2._calc_onepass", "riptable/rt_accum2.py:Accum2._add_totals", "riptable/rt_accum2.py:Accum2._apply_2d_operation"]}
{"id": "C118", "title": "Totals of other calculations agree with the data", "statement": "For calculations that must go back to the data (mean, median, first, user functions) the row, column and grand totals are the function of all rows shown in that row, column or table, and stand beside the right keys.", "quantifier": "every pair of Categoricals, data, filters and function", "why_tests_cant": "all inputs, filters and display orders", "anchors": ["riptable/rt_accum2.py:Accum2._calc_multipass", "riptable/rt_accum2.py:Accum2._accum1_pass", "riptable/rt_accum2.py:Accum2.apply_reduce"]}
{"id": "C119", "title": "Indexing a two-way table by row number gives the keys of that row", "statement": "accum2[i] is the column key and the row key of row i, with the invalid name for a key that is missing or filtered.", "quantifier": "every pair of Categoricals, filter, row and earlier history", "why_tests_cant": "all inputs; arithmetic decoding of combined codes", "anchors": ["riptable/rt_accum2.py:Accum2.__getitem__", "riptable/rt_accum2.py:Accum2._internal_getitem"]}
{"id": "C120", "title": "transform of a two-way calculation gives every row its cell's value", "statement": "With transform=True each original row receives the value computed for the cell of its own row and column key.", "quantifier": "every pair of Categoricals, data, filters, function and earlier history", "why_tests_cant": "all inputs", "anchors": ["riptable/rt_accum2.py:Accum2._calculate_all"]}
{"id": "C121", "title": "The table of counts counts every row once", "statement": "Accum2.count gives in every cell the number of rows with that pair of keys that pass the filters; the margins are the sums of the cells, and so the numbers of rows shown.", "quantifier": "every pair of Categoricals, filter and earlier history", "why_tests_cant": "all inputs; conservation over unbounded partitions", "anchors": ["riptable/rt_accum2.py:Accum2.count", "riptable/rt_dataset.py:Dataset.imatrix_totals"]}
{"id": "C122", "title": "A pivot table shows every value in the cell of its keys", "statement": "Dataset.pivot gives for each value column a table with one row per label key and one column per column key; the cell of two keys holds the value of the one row that has them, or an invalid if there is none; rows left out by the filter do not appear, and two rows for one cell are refused.", "quantifier": "every dataset, label, column and value columns, and filter", "why_tests_cant": "all tables and key combinations; cells are located by arithmetic on combined codes", "anchors": ["riptable/rt_dataset.py:Dataset.pivot", "riptable/rt_grouping.py:combine2groups", "riptable/rt_numpy.py:combine2keys"]}
{"id": "C123", "title": "Pivot followed by melt gives the rows back", "statement": "Melting a pivot table by its labels, with trim, gives exactly the non-blank values of the original rows, each with its label keys and the text of its column key.", "quantifier": "every dataset and choice of columns", "why_tests_cant": "all tables; round trip over unbounded sizes", "anchors": ["riptable/rt_dataset.py:Dataset.pivot", "riptable/rt_dataset.py:Dataset.melt"]}
{"id": "C124", "title": "Transposing turns rows into columns without losing any", "statement": "Dataset.transpose gives a table with one row per transposed column and, after the header column of names, one column per row named by its labels; each cell is the (converted) cell with row and column exchanged, and transposing again brings the columns back.", "quantifier": "every dataset, labels and choice of columns", "why_tests_cant": "all tables; involution", "anchors": ["riptable/rt_dataset.py:Dataset.transpose", "riptable/rt_dataset.py:Dataset.imatrix_make"]}
{"id": "C125", "title": "Reducing over rows, columns or everything agrees", "statement": "Dataset.reduce with axis 0 is the function of each column, with axis 1 of each row, with axis None of all values of the columns that can be computed with; for functions that can be taken in parts the three agree; the dataset itself is not changed.", "quantifier": "every dataset, function and fill value", "why_tests_cant": "all tables and functions; algebraic law", "anchors": ["riptable/rt_dataset.py:Dataset.reduce", "riptable/rt_dataset.py:Dataset.imatrix_make"]}
{"id": "C126", "title": "any and all mean the same over every axis", "statement": "Dataset.any and Dataset.all with axis 1, 0 and None are true exactly when some (every) cell of the row, column or dataset is non-zero or non-empty.", "quantifier": "every dataset", "why_tests_cant": "all tables", "anchors": ["riptable/rt_dataset.py:Dataset.any", "riptable/rt_dataset.py:Dataset.all"]}
{"id": "C127", "title": "One-hot columns say which category a row has", "statement": "Dataset.one_hot_encode replaces each chosen Categorical by a column per category that is 1 exactly in the rows of that category (and 0 everywhere for Filtered rows); all other columns stay as they are.", "quantifier": "every dataset and choice of columns", "why_tests_cant": "all tables, categories and names", "anchors": ["riptable/rt_dataset.py:Dataset.one_hot_encode", "riptable/rt_categorical.py:Categorical.one_hot_encode"]}
{"id": "C128", "title": "Footers are exactly what was set and not removed", "statement": "After any history of making Datasets, setting and removing footers, assigning, renaming and removing columns, setting other attributes and deep copying, footer_get_values and footer_get_dict give, for any labels and columns, the last value set for the label and the column and not removed since (values follow a renamed column and go with a removed one), labels in the order first set; operations naming a missing column raise IndexError and change nothing.", "quantifier": "every history of operations on any number of Datasets, all labels, columns and fill values", "why_tests_cant": "unbounded histories over mutable objects that may be shared", "anchors": ["riptable/rt_dataset.py:Dataset.footer_set_values", "riptable/rt_dataset.py:Dataset.footer_get_values", "riptable/rt_dataset.py:Dataset.footer_get_dict", "riptable/rt_dataset.py:Dataset.footer_remove", "riptable/rt_itemcontainer.py:ItemContainer.item_set_attribute"]}
{"id": "C129", "title": "Copies keep their own footers", "statement": "A copy starts with the footers of the Dataset it was made from, and from then on nothing done to one of the two is seen in the footers of the other.", "quantifier": "every history of operations on any number of Datasets", "why_tests_cant": "unbounded histories; aliasing of attribute objects", "anchors": ["riptable/rt_dataset.py:Dataset._copy", "riptable/rt_dataset.py:Dataset.sort_copy", "riptable/rt_itemcontainer.py:ItemContainer.copy", "riptable/rt_itemcontainer.py:ItemAttribute.copy"]}
{"id": "C130", "title": "cut puts every value in its bin", "statement": "With increasing edges cut gives every row the number of the one bin its value is in (left edge excluded, except for the first bin, right edge included), and 0 exactly for NaN, for rows the filter leaves out and for values outside the edges; larger values are in later bins; different bins have different labels; repeated edges are refused, or merged if that is asked for, and decreasing edges are refused.", "quantifier": "all arrays, edges, filters, labels, precisions", "why_tests_cant": "unbounded arrays and edges", "anchors": ["riptable/rt_bin.py:cut", "riptable/rt_bin.py:_bins_to_cuts_new", "riptable/rt_bin.py:_format_labels", "riptable/rt_bin.py:_infer_precision"]}
{"id": "C131", "title": "cut into n bins makes equal bins that cover the data", "statement": "Given a number n of bins, cut makes n bins of equal positive width, reaching from the smallest to the largest value when there are two different ones, and every finite row is in one of them.", "quantifier": "all arrays of finite values and NaN, all n >= 1, all filters", "why_tests_cant": "unbounded arrays and numbers of bins", "anchors": ["riptable/rt_bin.py:cut"]}
{"id": "C132", "title": "qcut bins by quantiles, evenly", "statement": "The edges of qcut are the asked quantiles of the finite values; rows are 0 for NaN, Clipped for values outside, and otherwise in their bin; n quantile bins of N different values cover all of them, the first k holding floor(k(N-1)/n)+1; equal quantiles are refused or merged as asked.", "quantifier": "all arrays, quantiles, filters, any sort", "why_tests_cant": "unbounded arrays and quantile lists", "anchors": ["riptable/rt_bin.py:qcut", "riptable/rt_bin.py:quantile", "riptable/rt_bin.py:_bins_to_cuts_new"]}
{"id": "C133", "title": "arithmetic between tables with totals acts on the totals too", "statement": "For two Datasets with the same label and data columns, as many summary columns and as many footer rows, a binary operation keeps the labels and combines data columns by name and summary columns and footer rows by position, value by value (NaN where a footer is not set); the result has the same shape.", "quantifier": "all tables, all binary operations", "why_tests_cant": "unbounded tables, columns and footers", "anchors": ["riptable/rt_dataset.py:Dataset._operate_iter_input_cols", "riptable/rt_dataset.py:Dataset._construct_new_footers", "riptable/rt_dataset.py:Dataset.conform"]}
{"id": "C134", "title": "AccumTable.gen shows the tables last given, after any history", "statement": "After any sequence of assignments, reads, margin and footer choices and gens, gen(name) shows the cells and labels of the table last given under that name, its row totals under that name, the row totals of the chosen margins, and one footer row per chosen table with its column totals and its grand total; with remove_blanks exactly the blank columns and the blank rows of the table are left out everywhere; gen fails if one of these tables was never given.", "quantifier": "all histories of tables of one shape", "why_tests_cant": "unbounded histories", "anchors": ["riptable/rt_accumtable.py:AccumTable.gen", "riptable/rt_accumtable.py:AccumTable.__setitem__", "riptable/rt_accumtable.py:AccumTable.__getitem__", "riptable/rt_accumtable.py:AccumTable.set_margin_columns", "riptable/rt_accumtable.py:AccumTable.set_footer_rows"]}
{"id": "C135", "title": "accum_ratio divides the aggregates, cell by cell and total by total", "statement": "Each cell of accum_ratio is the first aggregate of that cell's rows divided by the second; the row totals, column totals and the grand total are the quotients of the totals (not totals of quotients); the numerators and denominators are shown beside and below if asked for.", "quantifier": "all arrays, keys, filters, aggregates that can be done in parts", "why_tests_cant": "unbounded arrays and keys", "anchors": ["riptable/rt_accumtable.py:accum_ratio"]}
{"id": "C136", "title": "accum_ratiop gives each cell's share of the table, of its row or of its column", "statement": "Each cell of accum_ratiop is its aggregate in percent of the grand total, of the total of its row or of the total of its column; the totals are the shares of the totals; the absolute totals are shown beside and below if asked for.", "quantifier": "all arrays, keys, filters, normalisations, aggregates that can be done in parts", "why_tests_cant": "unbounded arrays and keys", "anchors": ["riptable/rt_accumtable.py:accum_ratiop"]}
{"id": "C137", "title": "accum_cols computes each column on its own", "statement": "accum_cols gives the keys and one column per argument, in order: the aggregate of each key's rows, its share of the aggregate of all rows, or the quotient of two aggregates, with the same over all rows as the footer Total; no column is affected by the others.", "quantifier": "all lists of columns with different names, all filters and keys", "why_tests_cant": "unbounded lists and arrays", "anchors": ["riptable/rt_accumtable.py:accum_cols"]}
{"id": "C138", "title": "trim removes exactly the blank columns and rows", "statement": "Dataset.trim removes exactly the data and summary columns of nothing but blanks, then, if a column is left, exactly the rows that are blank in all of them; the labels stay, the remaining cells and the footers under the remaining columns are unchanged.", "quantifier": "all Datasets with labels, summary columns and footers, any notion of blank", "why_tests_cant": "unbounded tables", "anchors": ["riptable/rt_dataset.py:Dataset.trim"]}
{"id": "C139", "title": "a nested Struct saved to .sds is loaded again", "statement": "Struct.save of a Struct with nested containers to a path without a directory, followed by load, gives the same items in the same order, recursively, with the arrays of every Categorical and the labels of every nested container that has data of its own, whatever the order in which the operating system lists the files.", "quantifier": "all Structs of any depth with distinct names and plain container names, all listing orders", "why_tests_cant": "unbounded nesting, widths and listing orders", "anchors": ["riptable/rt_sds.py:save_sds", "riptable/rt_sds.py:save_struct", "riptable/rt_sds.py:_sds_from_tree", "riptable/rt_sds.py:load_sds", "riptable/rt_sds.py:_sds_path_multi", "riptable/rt_sds.py:_build_schema", "riptable/rt_sds.py:_sds_load_from_schema"]}
{"id": "C140", "title": "a save that stops half way, or missing files, lose only their own data", "statement": "If a save into a new directory stops after any number of files, load still succeeds and gives only data that was saved, at its place, and all the data of the files that were written; if files other than the root file are missing, exactly the data of the others is loaded.", "quantifier": "all Structs, all crash points between files, all sets of missing files", "why_tests_cant": "every crash point and every subset of files", "anchors": ["riptable/rt_sds.py:save_struct", "riptable/rt_sds.py:_sds_from_tree", "riptable/rt_sds.py:_sds_path_multi", "riptable/rt_sds.py:_load_sds"]}
{"id": "C141", "title": "saving over an existing directory", "statement": "Saving a Struct over an existing directory and loading it gives exactly the names of the new Struct; new data is loaded unless an old file lies at or below its place, and everything loaded was saved now or stands in an old file that was not written again; when every old file is written again, the new Struct is loaded as from a new directory.", "quantifier": "all old directory contents, all Structs", "why_tests_cant": "unbounded histories of the directory", "anchors": ["riptable/rt_sds.py:save_sds", "riptable/rt_sds.py:_sds_path_multi", "riptable/rt_sds.py:_load_sds", "riptable/rt_sds.py:load_sds"]}
{"id": "C142", "title": "the bulk load of a directory gives each item its own file", "statement": "Loading a directory in one multi-file call, where files are handed to the items by a running index, gives the same as reading each item's files one at a time.", "quantifier": "all directories in which only files of Structs have files below them", "why_tests_cant": "unbounded directories and nesting", "anchors": ["riptable/rt_sds.py:_load_sds", "riptable/rt_sds.py:_sds_load_from_schema", "riptable/rt_sds.py:_build_schema"]}
{"id": "C143", "title": "what is loaded from a directory at a path is what its file says", "statement": "A value is loaded at a path of names exactly if the file of that path holds it as an array, or no file lies at or below the path and the file of the container before it holds it; with a root file, its own arrays come first, and containers it does not know are loaded only with include_all_sds.", "quantifier": "all clean directories, with or without a root file", "why_tests_cant": "unbounded directories and paths", "anchors": ["riptable/rt_sds.py:_load_sds", "riptable/rt_sds.py:_sds_load_from_schema", "riptable/rt_sds.py:_order_from_meta"]}
{"id": "C144", "title": "Datasets saved into the directory of a saved Struct are loaded with it", "statement": "After a Struct was saved to a new directory, and any number of Datasets were saved into that directory under new names or in place of flat containers, load gives the Struct with those Datasets set, the last save of a name winning and new names at the end.", "quantifier": "all Structs, all histories of Dataset saves", "why_tests_cant": "unbounded histories of saves", "anchors": ["riptable/rt_sds.py:_rebuild_rootfile", "riptable/rt_sds.py:save_sds", "riptable/rt_sds.py:load_sds"]}
{"id": "C145", "title": "the last save to a path is what load returns", "statement": "After any sequence of saves of Datasets, flat Structs and arrays to one path that has no directory, load of the path gives the item saved last.", "quantifier": "all sequences of saves to a path", "why_tests_cant": "unbounded histories of saves", "anchors": ["riptable/rt_sds.py:save_sds", "riptable/rt_sds.py:load_sds"]}
{"id": "C146", "title": "a Dataset or flat Struct written to one .sds file is read back exactly", "statement": "Items, their order, the labels and the arrays of every Categorical come back exactly from one file, for any mix of arrays, scalars and Categoricals.", "quantifier": "all Datasets and flat Structs with distinct names", "why_tests_cant": "unbounded numbers of items and of arrays per Categorical", "anchors": ["riptable/rt_sds.py:_write_to_sds", "riptable/rt_sds.py:_init_root_container", "riptable/rt_sds.py:container_from_filetype", "riptable/rt_sds.py:_read_sds", "riptable/rt_struct.py:Struct._build_sds_meta_data", "riptable/rt_struct.py:Struct._load_from_sds_meta_data"]}
{"id": "C147", "title": "sections appended to a file are put together in append order and none is lost", "statement": "Loading a file that was saved to with append gives the same whatever order the threads deliver the sections in: one Dataset with all columns in order under distinct names (each its own name, or that name with a number), or a Struct with every section under its name, or all the sections in order.", "quantifier": "all lists of sections, all delivery orders", "why_tests_cant": "every thread schedule", "anchors": ["riptable/rt_sds.py:_read_sds"]}
{"id": "C148", "title": "sds_flatten keeps every Struct", "statement": "After sds_flatten of a directory that holds directories of saved Structs, the directories are gone, and loading the base directory gives each Struct under the name of its directory, with its labels and its items in order.", "quantifier": "all lists of saved Structs with plain distinct names, all listing orders", "why_tests_cant": "unbounded directories and nesting", "anchors": ["riptable/rt_sds.py:sds_flatten", "riptable/rt_sds.py:load_sds"]}
{"id": "C149", "title": "integer arrays go to pyarrow and back unchanged", "statement": "to_arrow and from_arrow keep every value, the invalid ones as nulls, and the type; from_arrow of a pyarrow array in any number of chunks keeps every value and null, and widens the type just when a value is the invalid value of the type; it raises in exactly the documented cases.", "quantifier": "all integer types, all arrays and chunkings, all flags", "why_tests_cant": "unbounded arrays; every value of every type", "anchors": ["riptable/rt_fastarray.py:FastArray.to_arrow", "riptable/rt_fastarray.py:FastArray._from_arrow"]}
{"id": "C150", "title": "string arrays go to pyarrow and back unchanged", "statement": "Strings and ASCII byte strings come back from pyarrow as they were, as strings or in their fixed width, whether empty strings are made null or not; pyarrow strings come back from riptable, nulls as nulls.", "quantifier": "all string arrays", "why_tests_cant": "unbounded arrays and strings", "anchors": ["riptable/rt_fastarray.py:FastArray.to_arrow", "riptable/rt_fastarray.py:FastArray._from_arrow"]}
{"id": "C151", "title": "Categoricals go to pyarrow and back unchanged", "statement": "A Categorical exported to a pyarrow dictionary array has the same value in every row, null where it is filtered, and read back it has the same categories in order and the same value in every row; a pyarrow dictionary array with indices of any integer type is read row by row.", "quantifier": "all Categoricals of one key with base index 0 or 1, all pyarrow dictionary arrays", "why_tests_cant": "unbounded rows and categories; behaviour at the limits of each index type", "anchors": ["riptable/rt_categorical.py:Categorical.to_arrow", "riptable/rt_categorical.py:Categorical._from_arrow", "riptable/rt_grouping.py:Grouping._from_categories"]}
{"id": "C152", "title": "Categoricals with a mapping go to pyarrow and back unchanged", "statement": "A Categorical made from codes and a mapping of codes to names has, after to_arrow and from_arrow, the same code in every row and the same name for every named code.", "quantifier": "all mappings and all arrays of codes, with or without names", "why_tests_cant": "unbounded rows and names", "anchors": ["riptable/rt_categorical.py:Categorical.to_arrow", "riptable/rt_categorical.py:Categorical._from_arrow"]}
{"id": "C153", "title": "where of numbers takes the chosen element", "statement": "where(cond, x, y) gives in every row the element of x where the condition holds and of y where it does not, unchanged, invalid ones as invalid, in a type that holds both; arrays of one element and python integers serve all rows; other lengths are refused.", "quantifier": "all conditions, all numeric types, arrays and python integers", "why_tests_cant": "unbounded arrays; every value of every pair of types", "anchors": ["riptable/rt_numpy.py:where", "riptable/rt_numpy.py:get_common_dtype", "riptable/rt_numpy.py:min_scalar_type"]}
{"id": "C154", "title": "where of Categoricals shows the chosen category", "statement": "where(cond, x, y) of two Categoricals is a Categorical that shows in every row what x shows where the condition holds and what y shows where it does not, whatever their categories are.", "quantifier": "all conditions, all Categoricals of either base index or with a mapping", "why_tests_cant": "unbounded rows and categories", "anchors": ["riptable/rt_numpy.py:where", "riptable/rt_categorical.py:Categorical.hstack"]}
{"id": "C155", "title": "assignment to elements changes those elements only", "statement": "After arr[where] = values the positions assigned to hold the value last assigned to them and all others are as before; a number the array cannot hold, a position out of range or a wrong number of values raises.", "quantifier": "all numeric arrays, position lists with repetition, masks, values of any numeric type", "why_tests_cant": "unbounded arrays and positions", "anchors": ["riptable/rt_fastarray.py:FastArray.__setitem__"]}
{"id": "C156", "title": "Stacked Structs keep everything", "statement": "Struct.hstack of Structs whose items of one name have one type gives at every depth the arrays and scalars of that name one after the other in the order of the Structs, the stacked Datasets, all names in order of first appearance, and nothing else.", "quantifier": "all lists of Structs of any depth", "why_tests_cant": "unbounded number, size and depth of Structs", "anchors": ["riptable/rt_struct.py:Struct.hstack", "riptable/rt_hstack.py:stack_rows"]}
{"id": "C157", "title": "A stacked dictionary names the source of every row", "statement": "hstack_any of a dictionary of arrays gives the arrays one after the other and a Categorical that shows for every row the key of the array the row came from.", "quantifier": "all dictionaries of arrays, empty ones included", "why_tests_cant": "unbounded numbers of arrays and rows", "anchors": ["riptable/rt_hstack.py:hstack_any"]}
{"id": "C158", "title": "Struct.equals tells exactly whether two Structs hold the same", "statement": "a.equals(b) is True exactly when both have the same names in the same order with the same bytes in the arrays and equal scalars at every depth; it is symmetric and a Struct equals itself.", "quantifier": "all pairs of Structs of any depth", "why_tests_cant": "unbounded depth and size", "anchors": ["riptable/rt_struct.py:Struct.equals"]}
{"id": "C159", "title": "Comparison operators of Structs answer for every name", "statement": "a == b (and <, <=, ...) of Structs has every name of either Struct once and is True for a name exactly if both have it and every element below it satisfies the operator.", "quantifier": "all pairs of Structs of any depth, all operators", "why_tests_cant": "unbounded depth and size", "anchors": ["riptable/rt_struct.py:Struct.__eq__", "riptable/rt_struct.py:Struct.__ne__"]}
{"id": "C160", "title": "count_uniques counts the different values of each group", "statement": "gb.count_uniques() shows for each key and each column the number of different values in the rows of that key that pass the filter, whatever has been calculated before.", "quantifier": "all groupings, columns, filters and histories of calls", "why_tests_cant": "unbounded rows, groups and histories", "anchors": ["riptable/rt_groupbyops.py:GroupByOps.count_uniques", "riptable/rt_grouping.py:Grouping.catinstance"]}
{"id": "C161", "title": "agg applies each function to the columns it is asked for", "statement": "gb.agg({column: [functions]}) gives a Multiset with one Dataset per function, in the order in which the functions are first named, and each holds, for each key, the function of the rows of that key for exactly the columns for which it was asked.", "quantifier": "all dictionaries, groupings, columns, filters and histories", "why_tests_cant": "unbounded combinations", "anchors": ["riptable/rt_groupbyops.py:GroupByOps.agg"]}
{"id": "C162", "title": "The grouped quantile is the quantile that was asked for", "statement": "quantile, nanquantile, percentile and nanpercentile of a group give the midpoint of the two sorted values next to the position of q; the nan versions leave NaN out, the others answer NaN; q out of range is refused.", "quantifier": "all floats q and all groups of values", "why_tests_cant": "uncountably many q and unbounded groups; rounding of q * 1e9", "anchors": ["riptable/rt_groupbyops.py:GroupByOps._quantile", "riptable/rt_groupbyops.py:GroupByOps._quantile_funcParam_from_q"]}
{"id": "C163", "title": "Several quantiles at once give one column each", "statement": "quantile(q=[...]) gives for each column and each q one column, named after both, that is the column of the single calculation for that q, and the key columns unchanged.", "quantifier": "all lists of q, all numbers of columns", "why_tests_cant": "unbounded lists; names made from rounded numbers", "anchors": ["riptable/rt_groupbyops.py:GroupByOps._quantile", "riptable/rt_groupbyops.py:GroupByOps.rolling_quantile"]}
{"id": "C164", "title": "The rolling quantile looks at the last rows", "statement": "rolling_quantile(q, window) answers for each row the quantile q of the values that are not NaN among the last window rows; a window longer than the array means all rows up to this one.", "quantifier": "all arrays, windows and q", "why_tests_cant": "unbounded arrays and windows; window and q share one parameter", "anchors": ["riptable/rt_fastarray.py:FastArray.rolling_quantile", "riptable/rt_utils.py:rolling_quantile_funcParam"]}
{"id": "C165", "title": "Adding a span to a date or time adds it to every row", "statement": "Date or DateTimeNano plus DateSpan or TimeSpan, in either order, and span plus span, has the class the table says and shows in every row the sum of what the operands show, invalid if either is invalid; adding two points in time raises.", "quantifier": "all pairs of classes, all arrays, lengths and broadcasts", "why_tests_cant": "unbounded arrays; two units, four encodings of invalid", "anchors": ["riptable/rt_datetime.py:_apply_inv_mask", "riptable/rt_datetime.py:DateBase._funnel_mathops", "riptable/rt_datetime.py:DateTimeNano.__add__", "riptable/rt_datetime.py:TimeSpan.__add__"]}
{"id": "C166", "title": "Subtracting dates, times and spans subtracts what they show", "statement": "Point minus point gives a span, point minus span a point, span minus span a span, row by row, invalid if either is invalid; span minus point raises.", "quantifier": "all pairs of classes, all arrays, lengths and broadcasts", "why_tests_cant": "unbounded arrays; two units, four encodings of invalid, time zones", "anchors": ["riptable/rt_datetime.py:Date.__sub__", "riptable/rt_datetime.py:DateTimeNano.__sub__", "riptable/rt_datetime.py:DateSpan._check_mathops", "riptable/rt_datetime.py:TimeSpan.__sub__"]}
{"id": "C167", "title": "Adding and subtracting undo each other", "statement": "(t + s) - s shows t, (t + s) - t shows s and (t - u) + u shows t, in every row where all operands are valid.", "quantifier": "all arrays of points and spans of each class", "why_tests_cant": "a law over all pairs of arrays", "anchors": ["riptable/rt_datetime.py:DateBase._funnel_mathops", "riptable/rt_datetime.py:DateTimeNano._build_mathops_result"]}
{"id": "C168", "title": "In-place arithmetic on dates and times equals the plain operation", "statement": "a += b and a -= b leave a with the result of a + b and a - b, and an operation that raises leaves a as it was.", "quantifier": "all pairs of classes and all arrays", "why_tests_cant": "unbounded arrays; the array is both operand and result", "anchors": ["riptable/rt_datetime.py:DateBase._funnel_mathops", "riptable/rt_datetime.py:DateTimeNano.__iadd__", "riptable/rt_datetime.py:DateTimeNano.__isub__"]}
{"id": "C169", "title": "Loading several files stacked shows every file's rows, column by column", "statement": "load_sds(files, stack=True) of Datasets that agree on the class of each column has the columns of all files in order of first appearance; each column shows the rows of the files in turn, with invalids (filtered for Categoricals) for files without the column.", "quantifier": "all lists of saved Datasets, all columns, any categories and codes", "why_tests_cant": "unbounded numbers of files, columns, rows and categories that differ between files", "anchors": ["riptable/rt_sds.py:_stack_sds_files", "riptable/rt_sds.py:_multistack_items", "riptable/rt_sds.py:_multistack_categoricals", "riptable/rt_grouping.py:merge_cats", "riptable/rt_grouping.py:hstack_groupings"]}
{"id": "C170", "title": "Categoricals of different base index are not stacked from files", "statement": "If a column is a Categorical of different base index in two of the files, loading them stacked raises, wherever in the list they are.", "quantifier": "all lists of files and all positions of the two", "why_tests_cant": "any number of files between the two", "anchors": ["riptable/rt_sds.py:_multistack_categoricals"]}
{"id": "C171", "title": "The partitions of a stacked load are the files", "statement": "The cutoffs of the stacked Dataset are the running sums of the rows of the files and the rows between two cutoffs are those of that file, for every column.", "quantifier": "all lists of files, every file, every column", "why_tests_cant": "unbounded numbers of files, columns missing in some", "anchors": ["riptable/rt_sds.py:_stack_sds_files", "riptable/rt_pdataset.py:PDataset.__init__"]}
{"id": "C172", "title": "filter= of load_sds loads the rows asked for", "statement": "A boolean filter loads the rows where it is true; a filter of row numbers loads those rows.", "quantifier": "all row counts, masks and lists of row numbers", "why_tests_cant": "unbounded masks and index lists", "anchors": ["riptable/rt_sds.py:_convert_to_mask", "riptable/rt_sds.py:_stack_sds_files"]}
{"id": "C173", "title": "Loading a list of paths gives one result per path", "statement": "load_sds of a list of files and directories gives the results of the existing paths in the order of the list; with mustexist=True a missing path raises.", "quantifier": "all lists of paths of any kind", "why_tests_cant": "any interleaving of files, directories and missing paths", "anchors": ["riptable/rt_sds.py:_sds_dir_from_file_list", "riptable/rt_sds.py:_sds_load_from_list"]}
{"id": "C174", "title": "rt.merge left and right: every row of the driving table once, with its first match", "statement": "rt.merge(how='left'/'right') has one row per row of the left (right) Dataset in order; the other side's columns show the first row with that key, invalid if there is none; names follow the suffix rules and the indicator tells which sides match.", "quantifier": "all Datasets, key columns, suffixes, column choices", "why_tests_cant": "any number of rows, keys and columns, duplicates anywhere", "anchors": ["riptable/rt_merge.py:merge", "riptable/rt_merge.py:_construct_index", "riptable/rt_merge.py:_construct_colname_mapping"]}
{"id": "C175", "title": "rt.merge inner: the left rows with a match, each with its first match", "statement": "rt.merge(how='inner') shows, in order, the left rows whose key is in the right Dataset, with the values of that left row and of the first matching right row.", "quantifier": "all Datasets and key columns", "why_tests_cant": "duplicates on both sides, any number of keys", "anchors": ["riptable/rt_merge.py:merge", "riptable/rt_merge.py:_construct_index"]}
{"id": "C176", "title": "rt.merge outer: every key of either side once; refusals", "statement": "rt.merge(how='outer') has one row per distinct key: the left ones in order of first appearance, then the right ones not on the left, with the first row of each side; rt.merge raises on missing columns, unequal or empty key lists, unresolved name collisions and a colliding indicator name, and otherwise not.", "quantifier": "all Datasets, key columns, suffixes, indicators", "why_tests_cant": "any number of distinct keys in any order", "anchors": ["riptable/rt_merge.py:merge", "riptable/rt_merge.py:_construct_index"]}
{"id": "C177", "title": "merge_asof matches every left row, sorted or not", "statement": "merge_asof keeps the left rows in order and pairs each with the right row of the same by-key that is last not after it (backward), first not before it (forward) or closest (nearest), also when the on columns are unsorted and action_on_unsorted='sort'.", "quantifier": "all Datasets, by-keys, directions, exact or not, any order of the on columns", "why_tests_cant": "orders of rows on both sides, ties, groups without candidates", "anchors": ["riptable/rt_merge.py:merge_asof", "riptable/rt_merge.py:_AsOfMerge.get_result", "riptable/rt_merge.py:_AsOfMerge._create_merge_fancy_indices", "riptable/rt_utils.py:alignmk"]}
{"id": "C178", "title": "The match of merge_asof is determined by the data", "statement": "For given Datasets and direction there is exactly one answer: ties go to the last equal row backward, the first equal row forward, and backward when both are equally near; any matching and sorting code meeting its contract gives the same result.", "quantifier": "all Datasets and directions, all conforming kernels", "why_tests_cant": "all tie patterns and all implementations of the kernels", "anchors": ["riptable/rt_merge.py:_AsOfMerge.get_result", "riptable/rt_utils.py:alignmk"]}
{"id": "C179", "title": "merge_asof raises exactly on bad arguments and refused disorder", "statement": "merge_asof raises if the numbers of by columns differ, a column is missing, names collide unresolvably, matched_on collides, or an on column is unsorted and sorting was not asked for; otherwise it does not.", "quantifier": "all arguments", "why_tests_cant": "all orders of the on columns", "anchors": ["riptable/rt_merge.py:merge_asof", "riptable/rt_merge.py:_AsOfMerge.get_result"]}
{"id": "C180", "title": "Comparing a multi-key Categorical with a tuple", "statement": "c == (k1,...,kn) is True exactly in the rows whose keys are that tuple and c != it exactly in the others; tuples of the wrong length raise; order comparisons follow the order of the categories.", "quantifier": "all multi-key Categoricals, base indices, tuples of strings and numbers", "why_tests_cant": "any number of key columns, categories, rows, missing tuples and filtered rows", "anchors": ["riptable/rt_categorical.py:Categories.get_multikey_index", "riptable/rt_categorical.py:Categorical._categorical_compare_check"]}
{"id": "C181", "title": "Comparing a multi-key Categorical with several tuples", "statement": "c == [t1, t2, ...] and c.isin([t1, t2, ...]) are True exactly in the rows whose keys are one of the tuples; != is the negation.", "quantifier": "all multi-key Categoricals and lists of tuples", "why_tests_cant": "any number of tuples, missing ones included", "anchors": ["riptable/rt_categorical.py:Categorical._categorical_compare_check", "riptable/rt_categorical.py:Categorical.isin"]}
{"id": "C182", "title": "from_bin and from_category are inverse", "statement": "from_category finds the bin of every category and raises for everything else; from_bin gives the category back and raises for bins outside.", "quantifier": "all Categoricals, sorted or not, one key or several, all bins and values", "why_tests_cant": "all categories, missing values on both sides of every category", "anchors": ["riptable/rt_categorical.py:Categorical.from_bin", "riptable/rt_categorical.py:Categorical.from_category", "riptable/rt_categorical.py:Categories.get_category_index"]}
{"id": "C183", "title": "Assigning tuples to rows of a multi-key Categorical", "statement": "After any history of assignments, c[mask] = tuple and c[tuple] = tuple change exactly the rows chosen to exactly that tuple; a tuple that is no category raises; every row always shows a category or is filtered.", "quantifier": "all multi-key Categoricals, all histories of assignments of tuples and codes", "why_tests_cant": "histories of any length", "anchors": ["riptable/rt_categorical.py:Categorical.__setitem__", "riptable/rt_categorical.py:Categories.get_multikey_index"]}
{"id": "C184", "title": "as_singlekey shows the same rows under one key", "statement": "as_singlekey gives a base 1 single-key Categorical in which every row shows the joined texts of its keys (or the name of its code), filtered rows stay filtered and rows with different keys stay different.", "quantifier": "all Categoricals: several keys, single key of base 0 or 1, mapped", "why_tests_cant": "any number of keys, texts, unmapped codes", "anchors": ["riptable/rt_categorical.py:Categorical.as_singlekey", "riptable/rt_grouping.py:Grouping.onedict"]}
{"id": "C185", "title": "Mapped Categoricals are merged and compared only when their mappings agree", "statement": "categorical_merge_dict raises exactly if two mappings give a name two codes or a code two names; otherwise the common mapping contains exactly the given ones and no row changes what it shows; comparing two mapped Categoricals compares names.", "quantifier": "all lists of mapped Categoricals, all orders of Python's sets", "why_tests_cant": "any number of mappings, names and codes", "anchors": ["riptable/rt_categorical.py:categorical_merge_dict", "riptable/rt_categorical.py:Categorical._categorical_compare_check", "riptable/rt_grouping.py:GroupingEnum"]}
{"id": "C186", "title": "iter_groups and groups give every row once, under its key", "statement": "iter_groups yields every key once, in group order, with exactly the rows having it in increasing order; groups is the same as a dictionary; every row that has a key occurs exactly once, whatever was asked of the GroupBy or Categorical before.", "quantifier": "all groupings, filtered rows and unused categories included, all histories of calls", "why_tests_cant": "any number of rows and groups; the packing is cached, so histories matter", "anchors": ["riptable/rt_groupbyops.py:GroupByOps.iter_groups", "riptable/rt_groupbyops.py:GroupByOps.groups", "riptable/rt_groupbyops.py:GroupByOps.get_groupings"]}
{"id": "C187", "title": "Looping over a GroupBy shows every group's rows", "statement": "for key, ds in gb: ds holds exactly the rows of key, in order, in every column, and keeps holding them when the pairs are collected.", "quantifier": "all groupings and Datasets", "why_tests_cant": "any number of rows, columns, groups; the object is shared between the turns of the loop", "anchors": ["riptable/rt_groupby.py:GroupBy.__iter__", "riptable/rt_groupbyops.py:GroupByOps._iter_internal_contiguous", "riptable/rt_groupbyops.py:GroupByOps._iter_internal"]}
{"id": "C188", "title": "first_fancy, last_fancy, first_bool and last_bool find the first and last row of every key", "statement": "first_fancy and last_fancy hold, for every key, its first and last row; first_bool and last_bool are True exactly in these rows.", "quantifier": "all groupings and Categoricals", "why_tests_cant": "any number of rows and keys, filtered rows, categories without rows", "anchors": ["riptable/rt_groupbyops.py:GroupByOps.first_fancy", "riptable/rt_groupbyops.py:GroupByOps.last_fancy", "riptable/rt_groupbyops.py:GroupByOps.first_bool", "riptable/rt_groupbyops.py:GroupByOps.last_bool"]}
{"id": "C189", "title": "get_group returns the rows of the group asked for", "statement": "gb.get_group(key) has exactly the rows of key, gb.as_categorical() shows the key of every row, and a key that does not exist raises.", "quantifier": "all GroupBys, sorted or not, all keys", "why_tests_cant": "any keys in any order of appearance", "anchors": ["riptable/rt_groupby.py:GroupBy.get_group", "riptable/rt_groupby.py:GroupBy.as_categorical", "riptable/rt_groupbykeys.py:GroupByKeys.keys"]}
{"id": "C190", "title": "Every array given to a grouped call gets its own column", "statement": "The headers made for a list of arrays are all different, the first array with a name keeps it, and every array is in the result under its header.", "quantifier": "all lists of named and unnamed arrays", "why_tests_cant": "any number of arrays, repeated names, names ending in digits", "anchors": ["riptable/rt_groupbyops.py:GroupByOps.get_header_names", "riptable/rt_groupbyops.py:GroupByOps._prepare_gb_data"]}
{"id": "C191", "title": "The columns of a grouped call are the stored ones, replaced or extended by the given ones", "statement": "A call on a GroupBy works on its Dataset with the given columns replacing those of the same name and added otherwise; on a Categorical on the given ones only; gb[names] works on the named columns and the keys, unchanged, and raises for names that do not exist.", "quantifier": "all Datasets, arguments and lists of names", "why_tests_cant": "any number of columns", "anchors": ["riptable/rt_groupbyops.py:GroupByOps._prepare_gb_data", "riptable/rt_groupby.py:GroupBy._getitem"]}
{"id": "C192", "title": "The members of a Multiset always have the same number of rows", "statement": "Whatever is assigned, deleted, locked or refused, all members of a Multiset have the number of rows it says; a member with another number is refused and changes nothing.", "quantifier": "all histories of constructions, assignments by item, list or attribute, deletions and locks", "why_tests_cant": "any history of operations", "anchors": ["riptable/rt_multiset.py:Multiset.__init__", "riptable/rt_multiset.py:Multiset.__setitem__", "riptable/rt_multiset.py:Multiset._check_addtype", "riptable/rt_struct.py:Struct.__setattr__"]}
{"id": "C193", "title": "flatten(horizontal=True) puts every column of every Dataset side by side under its full name", "statement": "The result has the label columns, then every value column at any depth, unchanged, under the joined names; it raises only when labels differ or names collide.", "quantifier": "all Multisets, nested to any depth", "why_tests_cant": "any depth, number of members and columns", "anchors": ["riptable/rt_multiset.py:Multiset.flatten"]}
{"id": "C194", "title": "flatten(horizontal=False) stacks the rows of every Dataset with the name it comes from", "statement": "The result has the rows of every Dataset at any depth, in order, with the joined names in the new column.", "quantifier": "all Multisets, nested to any depth", "why_tests_cant": "any depth, number of members, rows and columns", "anchors": ["riptable/rt_multiset.py:Multiset.flatten"]}
{"id": "C195", "title": "The display of a Multiset shows every column once under the right names", "statement": "Every column of every Dataset is shown once, grouped by column name in order of first appearance, with the names of the Datasets below; a copy is shown in the same way.", "quantifier": "all Multisets and grouping keys", "why_tests_cant": "any number of members and columns", "anchors": ["riptable/rt_multiset.py:Multiset._build_col_headers", "riptable/rt_multiset.py:Multiset._depth_first", "riptable/rt_multiset.py:Multiset.copy"]}
{"id": "C196", "title": "Indexing a Multiset indexes every Dataset in it", "statement": "ms[c] is the member c, else the Datasets having the column c reduced to it; ms[rows, columns] every Dataset reduced to these; multiget the columns each Dataset has.", "quantifier": "all Multisets nested to any depth, rows and columns", "why_tests_cant": "any depth, number of members, rows and columns", "anchors": ["riptable/rt_multiset.py:Multiset.__getitem__", "riptable/rt_multiset.py:Multiset.multiget", "riptable/rt_multiset.py:Multiset._copy"]}
{"id": "C197", "title": "apply_schema reports exactly the deviations and sets the metadata", "statement": "The dictionary returned is empty exactly if the object fits the schema at every depth, and every described part has the description, steward and detail of the schema afterwards.", "quantifier": "all nested objects and schemas", "why_tests_cant": "any depth and number of items", "anchors": ["riptable/rt_meta.py:apply_schema", "riptable/rt_meta.py:doc", "riptable/rt_meta.py:info"]}
{"id": "C198", "title": "The displayed rows are the head and the tail of the view, each cell from the right row", "statement": "The table has the first HEAD_ROWS and last TAIL_ROWS rows of the (sorted) view in order, one line of dots for the rows left out, and every line has the values of one row of the data and its number.", "quantifier": "all Datasets, sort orders, options and formatters", "why_tests_cant": "any number of rows and columns and any order", "anchors": ["riptable/rt_display.py:DisplayTable.build_result_table_new", "riptable/rt_display.py:DisplayTable.build_row_mask", "riptable/rt_display.py:DisplayTable.build_column", "riptable/rt_dataset.py:Dataset._prepare_display_data"]}
{"id": "C199", "title": "The displayed columns are a first and a last part of the columns, with dots exactly if some are left out", "statement": "The table has the labels or row numbers, the sorted and other columns in order, and the summary columns; columns are left out of the middle exactly if not all fit the console.", "quantifier": "all Datasets, widths of columns and consoles", "why_tests_cant": "any number and width of columns", "anchors": ["riptable/rt_display.py:DisplayTable.fit_max_columns", "riptable/rt_display.py:DisplayTable.add_required_columns", "riptable/rt_dataset.py:Dataset._prepare_display_data"]}
{"id": "C200", "title": "Footers are shown under their columns", "statement": "Every footer line has the footer of each shown column under it, whatever columns are left out, and the name of the line on the left.", "quantifier": "all Datasets with footers", "why_tests_cant": "any number of footer lines and columns", "anchors": ["riptable/rt_display.py:DisplayTable.build_result_table_new", "riptable/rt_dataset.py:Dataset._prepare_display_data", "riptable/rt_dataset.py:Dataset.footer_get_values"]}
{"id": "C201", "title": "All lines of a displayed table have the same length", "statement": "Headings, borders, rows and footers are as long as the columns with three spaces between them, so that columns stand under each other and, without dots and with one left column, fit the console.", "quantifier": "all Datasets and options", "why_tests_cant": "any texts and number of columns", "anchors": ["riptable/rt_display.py:DisplayConsoleTable.build_table", "riptable/rt_display.py:DisplayTable.fit_max_columns", "riptable/rt_display.py:DisplayColumn"]}
{"id": "C202", "title": "Showing all columns shows every column once", "statement": "With COL_ALL the tables shown one below the other have together every middle column once, in order, each with the labels and summary columns, and fit the console unless one column alone does not.", "quantifier": "all Datasets and console widths", "why_tests_cant": "any number and width of columns", "anchors": ["riptable/rt_display.py:DisplayTable.all_columns_console"]}
{"id": "C203", "title": "The headings of a displayed Multiset stay over their columns when columns are left out", "statement": "Both heading lines are cut where the columns are cut, so that every shown column has the name of its Dataset and its own name above it.", "quantifier": "all heading lines, columns and console widths", "why_tests_cant": "any number of members and columns", "anchors": ["riptable/rt_display.py:DisplayTable.fix_multiline_headers", "riptable/rt_display.py:DisplayTable.fit_max_columns"]}
{"id": "C204", "title": "The transposed display has one line per column with the first rows", "statement": "Each line has the name of a column and its values in the first rows, as many as fit the console and at most 15.", "quantifier": "all Datasets and console widths", "why_tests_cant": "any number of rows and columns", "anchors": ["riptable/rt_display.py:DisplayTable.build_transposed_columns", "riptable/rt_display.py:DisplayTable.build_result_table_new"]}
{"id": "C205", "title": "Repeated keys are shown as dots and can be read back", "statement": "With several labels the first label column shows a dot exactly where its text repeats the text above; reading dots as the text above gives the column.", "quantifier": "all Datasets with several labels", "why_tests_cant": "any number of rows", "anchors": ["riptable/rt_display.py:DisplayTable.fix_repeated_keys"]}
{"id": "C206", "title": "Comparing two integer arrays compares the numbers", "statement": "a < b, a == b, ... of integer or bool arrays of any widths and signs answer for each pair of elements as for the numbers themselves, and arrays of different lengths are refused.", "quantifier": "all integer arrays and comparisons", "why_tests_cant": "every pair of types and all 2^128 pairs of values", "anchors": ["riptable/rt_fastarray.py:FastArray.__array_ufunc__", "riptable/rt_fastarray.py:_ASTYPE"]}
{"id": "C207", "title": "Comparing an integer array with an integer compares the numbers", "statement": "A comparison of an array with an integer, on either side, answers for each element as for the numbers, also when the type of the array cannot hold the integer.", "quantifier": "all integer arrays, integers and comparisons", "why_tests_cant": "every type and integer", "anchors": ["riptable/rt_fastarray.py:FastArray.__array_ufunc__", "riptable/rt_fastarray.py:logical_find_common_type"]}
{"id": "C208", "title": "Integer arithmetic is done in a type that holds both operands and commutes", "statement": "+, -, *, minimum, maximum and the bit operations convert both operands to a type that holds their values, give the exact results where that type holds them, and swapping the operands of a commutative operation changes nothing.", "quantifier": "all operations, integer arrays and integers", "why_tests_cant": "every pair of types and all values", "anchors": ["riptable/rt_fastarray.py:FastArray.__array_ufunc__", "riptable/rt_fastarray.py:logical_find_common_type"]}
{"id": "C209", "title": "out= holds the result of the operation and ~ flips every bit", "statement": "With out= the exact result is stored whenever its type holds it; ~ gives the number with every bit flipped.", "quantifier": "all operations, arrays and out= types", "why_tests_cant": "every pair of types and all values", "anchors": ["riptable/rt_fastarray.py:FastArray.__array_ufunc__", "riptable/rt_ledger.py:MathLedger._BASICMATH_ONE_INPUT"]}
{"id": "C210", "title": "sum, min and max of an integer array", "statement": "The sum is exact if 64 bits hold it, min and max are the lowest and highest element in the type of the array, and initial=, dtype= and out= are respected.", "quantifier": "all integer arrays and keywords", "why_tests_cant": "any number of elements", "anchors": ["riptable/rt_fastarray.py:FastArray.__array_ufunc__"]}
{"id": "C211", "title": "+ appends strings", "statement": "+ on string arrays appends texts element by element, and appends a str, bytes or number to every element or puts it before.", "quantifier": "all string arrays and scalars", "why_tests_cant": "all texts", "anchors": ["riptable/rt_fastarray.py:FastArray.__array_ufunc__"]}
{"id": "C212", "title": "A saved Dataset comes back with its columns, labels, sorted view and footers", "statement": "Saving a Dataset to a file and loading it gives the same columns and labels, the rows of its view in the same order and the same footers.", "quantifier": "all Datasets with distinct column names", "why_tests_cant": "any columns, views and footers", "anchors": ["riptable/rt_struct.py:Struct._build_sds_meta_data", "riptable/rt_struct.py:Struct._load_from_sds_meta_data", "riptable/rt_sort_cache.py:SortCache"]}
{"id": "C213", "title": "A saved Categorical comes back showing the same", "statement": "Saving a Categorical and loading it gives the same codes, settings and names for missing values, and every row shows the same categories, for one key, several keys and mappings.", "quantifier": "all Categoricals", "why_tests_cant": "any categories, classes of keys and mappings", "anchors": ["riptable/rt_categorical.py:Categorical._build_sds_meta_data", "riptable/rt_categorical.py:Categorical._load_from_sds_meta_data", "riptable/rt_grouping.py:GroupingEnum"]}
{"id": "C214", "title": "Reductions follow the axis asked for", "statement": "A reducing method (nansum, mean, var, nanmin, ...) of an array returns for each row or column along the axis given the function of exactly its elements, or one result for all elements without an axis; dtype= turns the result into the dtype.", "quantifier": "all arrays of one or two dimensions, axes, keepdims, ddof and functions", "why_tests_cant": "any shapes and values", "anchors": ["riptable/rt_fastarray.py:FastArray._reduce_check", "riptable/rt_fastarray.py:FastArray._fa_keyword_wrapper", "riptable/rt_fastarray.py:FastArray.nansum", "riptable/rt_fastarray.py:FastArray.mean", "riptable/rt_fastarray.py:FastArray.var"]}
{"id": "C215", "title": "A reduction with a filter is the reduction of the elements it keeps, for every schedule of threads", "statement": "nansum, mean, nanmean, var and nanvar with filter= give the sum, mean and variance of the elements at which the filter is True, whatever the number of threads and their order; filters of another length raise.", "quantifier": "all arrays, filters and schedules of the parallel loops", "why_tests_cant": "any sizes and interleavings of threads", "anchors": ["riptable/rt_fastarray.py:_fnansumhelper", "riptable/rt_fastarray.py:_fnanvar", "riptable/rt_fastarray.py:_fvar", "riptable/rt_fastarray.py:FastArray._fa_filter_wrapper"]}
{"id": "C216", "title": "The reducing functions agree with the methods", "statement": "rt.f(x) of a FastArray is x.f() with the same keywords, and works on lists the same way.", "quantifier": "all reducing functions, arrays, lists and keywords", "why_tests_cant": "any values", "anchors": ["riptable/rt_numpy.py:nansum", "riptable/rt_numpy.py:mean", "riptable/rt_numpy.py:var", "riptable/rt_numpy.py:std", "riptable/rt_numpy.py:median"]}
{"id": "C217", "title": "Masks combine position by position", "statement": "mask_or, mask_and, mask_xor and mask_andnot give a new array that combines their arguments position by position from left to right and change no argument; the versions in place put the same values into their first argument only.", "quantifier": "all numbers of arguments, arrays and operations", "why_tests_cant": "any number of arguments of any length, also the same array twice", "anchors": ["riptable/rt_numpy.py:_mask_op", "riptable/rt_numpy.py:mask_or", "riptable/rt_numpy.py:mask_ori"]}
{"id": "C218", "title": "label_filter keeps the rows of the labels asked for", "statement": "label_filter keeps, in order, exactly the rows whose label equals an item (items=), holds a string (like=) or matches a pattern (regex=); any other number of these keywords raises.", "quantifier": "all Datasets, label columns, items, strings and patterns", "why_tests_cant": "any numbers of rows, labels and items", "anchors": ["riptable/rt_struct.py:Struct.label_filter", "riptable/rt_fastarray.py:FastArray.apply"]}
{"id": "C219", "title": "asrows gives every row once, in order", "statement": "asrows yields one object per row, in order, with the values of that row; what it yields can be kept and read later.", "quantifier": "all Datasets, types of row and orders of reading", "why_tests_cant": "any interleaving of asking for rows and reading them", "anchors": ["riptable/rt_dataset.py:Dataset.asrows"]}
{"id": "C220", "title": "Matrix totals are the sums of rows and columns", "statement": "imatrix_totals adds a column of row sums over the columns chosen and a footer of column sums with the grand total, and leaves the other columns; imatrix_y adds one column per function.", "quantifier": "all Datasets, chosen columns and earlier calls", "why_tests_cant": "any columns and any history of calls on the Dataset", "anchors": ["riptable/rt_dataset.py:Dataset.imatrix_make", "riptable/rt_dataset.py:Dataset.imatrix_y", "riptable/rt_dataset.py:Dataset.imatrix_xy", "riptable/rt_dataset.py:Dataset.imatrix_totals"]}
{"id": "C221", "title": "Row masks test every column of numbers", "statement": "mask_or_isnan and the like give one bool per row: whether the test holds in some (every) column of numbers that is no label; None without such a column.", "quantifier": "all Datasets, tests and labels", "why_tests_cant": "any numbers of rows and columns", "anchors": ["riptable/rt_dataset.py:Dataset._mask_reduce", "riptable/rt_dataset.py:Dataset.computable"]}
{"id": "C222", "title": "outliers names the extreme of every column", "statement": "outliers(col_keep) lists for every other column its smallest and largest number, the first row holding it and the value of col_keep in that row.", "quantifier": "all Datasets and columns kept", "why_tests_cant": "any values", "anchors": ["riptable/rt_dataset.py:Dataset.outliers", "riptable/rt_dataset.py:Dataset._apply_outlier"]}
{"id": "C223", "title": "Bad rows and columns are left out of the totals", "statement": "With badrows= and badcols= the totals of a two-way table (Accum2) leave out exactly the elements in bad rows and columns: a row's total its elements in bad columns, a column's total its elements in bad rows, the grand total both; the cells are not affected.", "quantifier": "all arrays, groups, filters, bad rows and columns (by number or name), with and without the filtered", "why_tests_cant": "any data and any choice of bad rows and columns", "anchors": ["riptable/rt_accum2.py:Accum2._calc_badslots", "riptable/rt_accum2.py:Accum2._calc_onepass", "riptable/rt_accum2.py:Accum2._calc_multipass", "riptable/rt_accum2.py:Accum2._accum1_pass"]}
{"id": "C224", "title": "The bad rows and columns given are the ones shown as bad, and are not changed", "statement": "The table marks exactly the bad rows and columns for display, and the arrays given as badrows= and badcols= are left unchanged.", "quantifier": "all bad rows and columns, by number (list or array) or name, with and without the filtered", "why_tests_cant": "any choice of bad rows and columns", "anchors": ["riptable/rt_accum2.py:Accum2._stack_dataset", "riptable/rt_accum2.py:Accum2._calc_onepass"]}
{"id": "C225", "title": "Patterns are extracted from every string", "statement": "str.extract gives for every group of a regular expression an array with what the group found in each string, or the fill value where there is no match; as a Dataset under the names given, the names of the groups or group_0, group_1, .., or as an array for one group. str.regex_match and str.regex_replace apply the expression to every string. apply_unique=True and False give the same.", "quantifier": "all arrays of strings, regular expressions, names, fill values and choices of expand", "why_tests_cant": "any strings and expressions; every way of finding the unique strings", "anchors": ["riptable/rt_str.py:FAString.extract", "riptable/rt_str.py:FAString.regex_match", "riptable/rt_str.py:FAString.regex_replace", "riptable/rt_str.py:_handle_apply_unique"]}
{"id": "C226", "title": "A Dataset as a matrix can be read back", "statement": "Dataset.as_matrix has the columns of the Dataset in order; numbers are kept, and the number that stands for another value is its place among the category values returned for the column (those given in column_data where given, with NaN for values not among them).", "quantifier": "all Datasets and column data", "why_tests_cant": "any columns of any types", "anchors": ["riptable/rt_dataset.py:Dataset.as_matrix", "riptable/rt_dataset.py:Dataset._normalize_column", "riptable/rt_dataset.py:Dataset._is_float_encodable"]}
{"id": "C227", "title": "isnan marks the invalid category", "statement": "Categorical.isnan is True exactly for the elements of the invalid category, isnotnan exactly for the others, and isfiltered exactly for the elements of no category; invalid_set takes a str or bytes.", "quantifier": "all Categoricals with one key (sorted or not, base index 0 and 1) and with mappings, all invalid categories", "why_tests_cant": "any categories and codes", "anchors": ["riptable/rt_categorical.py:Categorical.isnan", "riptable/rt_categorical.py:Categorical.isnotnan", "riptable/rt_categorical.py:Categorical.isfiltered", "riptable/rt_categorical.py:Categorical.invalid_set"]}
{"id": "C228", "title": "The invalid category belongs to the Categorical", "statement": "The invalid category of a Categorical is the one last set on it, or the one it was made with; Categoricals made from another by indexing, copying or shifting keep its invalid category and its name for filtered elements, and setting one on them does not change the other.", "quantifier": "all histories of making, indexing, copying, shifting and setting", "why_tests_cant": "every history", "anchors": ["riptable/rt_categorical.py:Categorical.__getitem__", "riptable/rt_categorical.py:Categorical.copy", "riptable/rt_categorical.py:Categorical.shift_cat", "riptable/rt_categorical.py:Categorical.newclassfrominstance", "riptable/rt_categorical.py:Categories._copy"]}
{"id": "C229", "title": "total_sizes counts every memory once", "statement": "Struct.total_sizes ends for all Structs, also for Structs inside themselves. The physical size counts each memory used by the columns of the Struct and of the Structs inside it once; the logical size is that after a deep copy, and at least the physical size.", "quantifier": "all Structs with shared and cyclic nesting, shared arrays, views and Categoricals", "why_tests_cant": "any nesting, sharing and cycles", "anchors": ["riptable/rt_struct.py:Struct.total_sizes", "riptable/rt_categorical.py:Categorical._total_size"]}
{"id": "C230", "title": "Searches in Structs see everything inside", "statement": "Struct.key_search finds exactly the paths to the keys that match, each once, through all nested Structs (not below Datasets); Struct.any is True if some element inside is true, Struct.all if every element is.", "quantifier": "all nested Structs and expressions", "why_tests_cant": "any depth of nesting", "anchors": ["riptable/rt_struct.py:Struct.key_search", "riptable/rt_struct.py:Struct.any", "riptable/rt_struct.py:Struct.all"]}
{"id": "C231", "title": "make_categoricals keeps every string", "statement": "Struct.make_categoricals turns every array of strings in the Struct and in all Structs inside it (or the columns listed) into a Categorical whose categories are the sorted distinct strings and whose rows read as before; everything else and the order stays. If a listed column does not exist nothing is changed.", "quantifier": "all Structs, nested to any depth, and lists of columns", "why_tests_cant": "any nesting and any strings", "anchors": ["riptable/rt_struct.py:Struct.make_categoricals"]}
{"id": "C232", "title": "Categories leave and enter Structs whole", "statement": "Struct.make_struct_from_categories returns the categories of every Categorical whose name begins with the prefix; Struct.make_matlab_categoricals replaces exactly the columns that belong to a name of xtra by the Categorical of their codes and these names, in place, and leaves all other columns.", "quantifier": "all Structs, prefixes and dictionaries of names", "why_tests_cant": "any columns, names and prefixes", "anchors": ["riptable/rt_struct.py:Struct.make_struct_from_categories", "riptable/rt_struct.py:Struct.make_matlab_categoricals"]}
{"id": "C233", "title": "The clock of a TimeSpan says the TimeSpan", "statement": "The text that a TimeSpan is shown with, days, hours, minutes, seconds and decimals, stands for exactly that TimeSpan: no rounding of floats moves it to another second, and different TimeSpans have different texts.", "quantifier": "all whole numbers of nanoseconds, positive and negative, below 146 years", "why_tests_cant": "every float64 below 2^62, also those next to a whole second", "anchors": ["riptable/rt_datetime.py:TimeSpanBase.display_item_clock", "riptable/rt_datetime.py:DateTimeBase._add_nano_ext"]}
{"id": "C234", "title": "hhmmss and units of TimeSpans are right", "statement": "hhmmss is the whole seconds of the TimeSpan as hours, minutes and seconds; with a unit, the text has the longest unit not longer than the TimeSpan and is right to half of its last decimal.", "quantifier": "all whole numbers of nanoseconds", "why_tests_cant": "every number of nanoseconds", "anchors": ["riptable/rt_datetime.py:TimeSpanBase.hhmmss", "riptable/rt_datetime.py:TimeSpanBase.display_item_unit", "riptable/rt_datetime.py:TimeSpanBase._display_resolution"]}
{"id": "C235", "title": "apply calls the functions on every column", "statement": "apply gives, for each function, the Dataset with the same columns in the same order, each the function of the old column; several functions give one Dataset each, under its name and in the order of the functions; exceptions of the functions are raised.", "quantifier": "all Datasets, lists of functions, functions that may raise", "why_tests_cant": "every Dataset and every list of functions", "anchors": ["riptable/rt_dataset.py:Dataset.apply"]}
{"id": "C236", "title": "Tables of percentages are shares", "statement": "accum_ratiop replaces every cell and margin of the table by its share of the total of the table, of its row or of its column, in percent, and leaves Total alone; when the margins are sums, the shares of every row, of every column or of the table sum to 100.", "quantifier": "all tables of numbers, names of columns and margins, the three ways to normalize", "why_tests_cant": "every table of every size", "anchors": ["riptable/rt_accumtable.py:accum_ratiop", "riptable/rt_accumtable.py:AccumTable.gen"]}
{"id": "C237", "title": "accum_cols gives a column for every value", "statement": "accum_cols gives the columns of the categories and then one column for each value, in their order and under their names, with its footer: the aggregate, ratio or percentage with the function and the filter of that value; the names default to col0, col1, ...", "quantifier": "all lists of values, names, filters and functions, for any aggregation", "why_tests_cant": "every list of every length", "anchors": ["riptable/rt_accumtable.py:accum_cols"]}
{"id": "C238", "title": "Popped columns leave the Struct and nothing else does", "statement": "col_pop returns the columns that the specification selects, in its order, and removes exactly these; the others stay in their order, and together they are the columns of before. When it raises, the Struct is as before.", "quantifier": "all Structs, all specifications: names, numbers, lists, slices, masks; locked or not", "why_tests_cant": "every Struct and every specification", "anchors": ["riptable/rt_struct.py:Struct.col_pop", "riptable/rt_struct.py:Struct._extract_indexing", "riptable/rt_struct.py:Struct._mask_get_item", "riptable/rt_struct.py:Struct.__getitem__"]}
{"id": "C239", "title": "any and all of a Struct look at every element", "statement": "any of a Struct is True if and only if some element in it, at any depth, is true; all is True if and only if no element is false.", "quantifier": "all Structs of Structs, arrays, iterables and scalars, of any depth", "why_tests_cant": "every nesting", "anchors": ["riptable/rt_struct.py:Struct.any", "riptable/rt_struct.py:Struct.all"]}
{"id": "C240", "title": "merge_lookup in place keeps the Dataset and adds the columns of the lookup", "statement": "With inplace=True, merge_lookup raises exactly when it raises out of place with all the left columns. Otherwise the Dataset keeps its columns, in their order and unchanged, followed by the new ones, and its columns are by name those that merge_lookup out of place returns; a right column whose name is taken gets the suffix.", "quantifier": "all pairs of Datasets, keys, column selections, suffixes, keep and require_match, for any grouping of the keys and any schedule of the threads", "why_tests_cant": "every Dataset and every schedule", "anchors": ["riptable/rt_dataset.py:Dataset.merge_lookup", "riptable/rt_merge.py:merge_lookup"]}
{"id": "C241", "title": "nunique counts the distinct values that are not missing", "statement": "nunique of a FastArray is the number of distinct values in it that are not NaN and not the sentinel of its dtype.", "quantifier": "all arrays of any length, of bools, signed and unsigned integers of any width, floats, strings and dates", "why_tests_cant": "every array", "anchors": ["riptable/rt_fastarray.py:FastArray.nunique", "riptable/rt_numpy.py:unique", "riptable/rt_enum.py:INVALID_DICT"]}
{"id": "C242", "title": "bitcount counts the bits that are set", "statement": "bitcount of an integer is the number of bits that are set in it, the same for a scalar and for an array with that element.", "quantifier": "all integers of any width, of either sign", "why_tests_cant": "every integer", "anchors": ["riptable/rt_numpy.py:bitcount"]}
{"id": "C243", "title": "Nothing is written over without the consent of the user", "statement": "With overwrite=False, save_sds writes over a file or into a directory that is there only after the user has answered Y or y; it does not after N or n, and asks again for anything else. With overwrite=True it never asks.", "quantifier": "all file systems, paths, names and sequences of answers; Datasets, arrays, Structs with and without nested containers", "why_tests_cant": "every sequence of answers and every file system", "anchors": ["riptable/rt_sds.py:save_sds", "riptable/rt_sds.py:_sds_path_single", "riptable/rt_sds.py:_sds_path_multi", "riptable/rt_sds.py:sds_endswith", "riptable/rt_sds.py:save_struct", "riptable/rt_sds.py:compress_dataset_internal"]}
{"id": "C244", "title": "What is saved under different names does not collide", "statement": "Objects that are saved in one directory under different names are written to different files.", "quantifier": "all paths and all pairs of different names; Datasets, arrays and Structs", "why_tests_cant": "every pair of names", "anchors": ["riptable/rt_sds.py:save_sds", "riptable/rt_sds.py:save_struct", "riptable/rt_sds.py:_parse_nested_name", "riptable/rt_sds.py:_write_to_sds"]}
{"id": "C245", "title": "key_search finds every item whose name matches", "statement": "key_search gives the dotted paths of exactly the items, at any depth in nested Structs, whose name matches the pattern, each once; not recursive, and in Datasets, it gives the names that match, in their order.", "quantifier": "all trees of Structs and Datasets of any depth, all patterns", "why_tests_cant": "every tree and every pattern", "anchors": ["riptable/rt_struct.py:Struct.key_search"]}
{"id": "C246", "title": "A mapping Categorical translates names and codes both ways", "statement": "The dictionaries of a mapping Categorical hold exactly the pairs of the dictionary it is made from: the code of a name and the name of a code are inverse to each other. A dictionary that is not all names to codes or all codes to names is refused.", "quantifier": "all dictionaries of any size with str, bytes, int or other keys and values", "why_tests_cant": "every dictionary", "anchors": ["riptable/rt_categorical.py:Categories.build_dicts_python"]}
{"id": "C247", "title": "Naming a Categorical keeps its keys", "statement": "When a Categorical takes a name, as when it becomes a column, its keys stay as they are and in their order: a single key takes the name, the unnamed ones of several take the name with their number, the others keep theirs.", "quantifier": "all dictionaries of keys and all names", "why_tests_cant": "every dictionary and every name", "anchors": ["riptable/rt_grouping.py:Grouping.set_name"]}
{"id": "C248", "title": "Columns of h5 data are not lost to name clashes", "statement": "Every array of a dictionary in h5 data becomes a column, in its place; a name that is a keyword is changed to one that no array has, other names stay, and no two columns have one name.", "quantifier": "all dictionaries of arrays, all names, any lists of keywords and attributes", "why_tests_cant": "every dictionary", "anchors": ["riptable/rt_utils.py:_possibly_escape_colname", "riptable/rt_utils.py:h5io_to_struct"]}
{"id": "C249", "title": "Values of a csv file stay in their rows", "statement": "A csv file becomes a Dataset only if every row has a field for every name, and then each value stands in the column of its name at the place of its row, converted by the converter of that name: no field that is missing shifts the values after it. The versions of the loader agree.", "quantifier": "all lists of rows of any lengths, all names, all converters, versions 0 to 3", "why_tests_cant": "every list of rows", "anchors": ["riptable/rt_csv.py:load_csv_as_dataset", "riptable/rt_csv.py:_load_rows_to_dict_conv_by_col", "riptable/rt_csv.py:_load_rows_to_dict_conv_by_row", "riptable/rt_csv.py:_load_rows_to_tagged_rows", "riptable/rt_csv.py:_load_rows_to_rows_and_cols", "riptable/rt_dataset.py:Dataset.from_tagged_rows"]}
{"id": "C250", "title": "Datasets kept as directories of numpy files come back", "statement": "A Dataset written as a directory of numpy files is read back with the same columns under the same names, whatever the order in which the directory is listed; a directory that exists is not written to, and other directories stay as they are.", "quantifier": "all Datasets, all states of the disk, all orders of listing", "why_tests_cant": "every Dataset and every order of listing", "anchors": ["riptable/rt_io.py:write_dset_to_np", "riptable/rt_io.py:read_dset_from_np"]}
{"id": "C251", "title": "Reductions over rows see each row's own values", "statement": "Grouping a Dataset by its rows gives one group for each row, and the group of a row holds the values of that row in the columns of the kind asked for (computable ones, or the others), in the order of the columns: no value of another row or column is mixed in, whatever function reduces it.", "quantifier": "all Datasets, all functions, both kinds of columns", "why_tests_cant": "every Dataset and every reducing function", "anchors": ["riptable/rt_dataset.py:Dataset.gbrows"]}
